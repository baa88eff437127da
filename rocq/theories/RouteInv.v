(** * Registration and routing: the invariant of the broker tree (proofs) *)
From Coq Require Import String ZArith Bool List Lia Permutation.
From Verif Require Import Ids PropsIds Route.
Import ListNotations.
Open Scope Z_scope.

(** ** lists and maps *)
Lemma lookup_app {A} (l l' : list (Z * A)) k : lookup (l ++ l') k = match lookup l k with Some v => Some v | None => lookup l' k end.
Proof. induction l as [|[k' v] l IH]; cbn [lookup app]; [reflexivity|]. destruct (k' =? k); [reflexivity|exact IH]. Qed.
Lemma lookup_in {A} (l : list (Z * A)) k v : lookup l k = Some v -> In (k, v) l.
Proof.
  induction l as [|[k' v'] l IH]; cbn [lookup]; [discriminate|]. destruct (Z.eqb_spec k' k) as [->|N]; intros H.
  - injection H as ->. left. reflexivity.
  - right. apply IH, H.
Qed.
Lemma lookup_none {A} (l : list (Z * A)) k : lookup l k = None -> ~ In k (map fst l).
Proof.
  induction l as [|[k' v'] l IH]; cbn [lookup map fst In]; [tauto|]. destruct (Z.eqb_spec k' k) as [->|N]; [discriminate|].
  intros H [E|E]; [contradiction|exact (IH H E)].
Qed.
Lemma in_lookup {A} (l : list (Z * A)) k v : NoDup (map fst l) -> In (k, v) l -> lookup l k = Some v.
Proof.
  induction l as [|[k' v'] l IH]; cbn [lookup map fst In]; [tauto|]. intros ND [E|E].
  - injection E as -> ->. rewrite Z.eqb_refl. reflexivity.
  - inversion ND as [|? ? NI ND']; subst. destruct (Z.eqb_spec k' k) as [->|N]; [|apply IH; assumption].
    exfalso. apply NI. apply in_map_iff. exists (k, v). split; [reflexivity|exact E].
Qed.
Lemma lookup_emplace {A} k (v : A) l k' :
  lookup (emplace k v l) k' = match lookup l k' with Some w => Some w | None => if k =? k' then Some v else None end.
Proof.
  unfold emplace. destruct (lookup l k) as [w|] eqn:E.
  - destruct (lookup l k') eqn:E'; [reflexivity|]. destruct (Z.eqb_spec k k') as [->|]; congruence.
  - rewrite lookup_app. cbn [lookup]. destruct (lookup l k'); [reflexivity|]. destruct (k =? k'); reflexivity.
Qed.
Lemma findF_in l n e : findF l n = Some e -> In e l /\ fe_name e = n.
Proof.
  induction l as [|a l IH]; cbn [findF]; [discriminate|]. destruct (String.eqb_spec (fe_name a) n) as [E|E]; intros H.
  - injection H as ->. split; [left; reflexivity|exact E].
  - destruct (IH H). split; [right; assumption|assumption].
Qed.
Lemma findB_in l n e : findB l n = Some e -> In e l /\ be_name e = n.
Proof.
  induction l as [|a l IH]; cbn [findB]; [discriminate|]. destruct (String.eqb_spec (be_name a) n) as [E|E]; intros H.
  - injection H as ->. split; [left; reflexivity|exact E].
  - destruct (IH H). split; [right; assumption|assumption].
Qed.
Lemma in_findF l e : NoDup (map fe_name l) -> In e l -> findF l (fe_name e) = Some e.
Proof.
  induction l as [|a l IH]; cbn [findF map In]; [tauto|]. intros ND [->|I].
  - rewrite String.eqb_refl. reflexivity.
  - inversion ND as [|? ? NI ND']; subst. destruct (String.eqb_spec (fe_name a) (fe_name e)) as [E|E]; [|apply IH; assumption].
    exfalso. apply NI. rewrite E. apply in_map, I.
Qed.
Lemma in_findB l e : NoDup (map be_name l) -> In e l -> findB l (be_name e) = Some e.
Proof.
  induction l as [|a l IH]; cbn [findB map In]; [tauto|]. intros ND [->|I].
  - rewrite String.eqb_refl. reflexivity.
  - inversion ND as [|? ? NI ND']; subst. destruct (String.eqb_spec (be_name a) (be_name e)) as [E|E]; [|apply IH; assumption].
    exfalso. apply NI. rewrite E. apply in_map, I.
Qed.
Lemma findF_none l n : findF l n = None -> ~ In n (map fe_name l).
Proof.
  induction l as [|a l IH]; cbn [findF map In]; [tauto|]. destruct (String.eqb_spec (fe_name a) n) as [E|E]; [discriminate|].
  intros H [E'|E']; [contradiction|exact (IH H E')].
Qed.
Lemma findB_none l n : findB l n = None -> ~ In n (map be_name l).
Proof.
  induction l as [|a l IH]; cbn [findB map In]; [tauto|]. destruct (String.eqb_spec (be_name a) n) as [E|E]; [discriminate|].
  intros H [E'|E']; [contradiction|exact (IH H E')].
Qed.
Lemma findF_app l e n : findF (l ++ [e]) n = match findF l n with Some x => Some x | None => if String.eqb (fe_name e) n then Some e else None end.
Proof. induction l as [|a l IH]; cbn [findF app]; [reflexivity|]. destruct (String.eqb (fe_name a) n); [reflexivity|exact IH]. Qed.
Lemma findF_upd l n g n' :
  findF (updF l n (fun e => mkF (fe_name e) g (fe_route e) (fe_own e))) n' =
  match findF l n' with Some e => Some (if String.eqb n' n then mkF (fe_name e) g (fe_route e) (fe_own e) else e) | None => None end.
Proof.
  induction l as [|a l IH]; cbn [findF updF map]; [reflexivity|]. change (map _ l) with (updF l n (fun e => mkF (fe_name e) g (fe_route e) (fe_own e))).
  assert (N : fe_name (if String.eqb (fe_name a) n then mkF (fe_name a) g (fe_route a) (fe_own a) else a) = fe_name a)
    by (destruct (String.eqb (fe_name a) n); reflexivity).
  rewrite N. destruct (String.eqb_spec (fe_name a) n') as [E|E]; [|exact IH]. rewrite E. destruct (String.eqb n' n); reflexivity.
Qed.
Lemma NoDup_snoc {A} (l : list A) x : NoDup l -> ~ In x l -> NoDup (l ++ [x]).
Proof. intros H N. apply (Permutation_NoDup (Permutation_cons_append l x)). constructor; assumption. Qed.
Lemma names_updB l n g : map be_name (updB l n (fun e => mkB (be_name e) g (be_route e) (be_own e))) = map be_name l.
Proof. unfold updB. rewrite map_map. apply map_ext. intros a. destruct (String.eqb (be_name a) n); reflexivity. Qed.
Lemma names_updF l n g : map fe_name (updF l n (fun e => mkF (fe_name e) g (fe_route e) (fe_own e))) = map fe_name l.
Proof. unfold updF. rewrite map_map. apply map_ext. intros a. destruct (String.eqb (fe_name a) n); reflexivity. Qed.

Section Tree.
Variable T : topology.
Hypothesis HT : tree T.
Notation par := (t_parent T).
Notation root := (t_root T).

Lemma root_parent : par root = None. Proof. apply HT. Qed.
Lemma root_core : t_core T root = false. Proof. apply HT. Qed.
Lemma has_parent x : x <> root -> exists p, par x = Some p. Proof. apply HT. Qed.
Lemma parent_core x p : par x = Some p -> t_core T p = false. Proof. intros H. apply (proj2 (proj2 (proj2 HT)) x p H). Qed.
Lemma parent_depth x p : par x = Some p -> t_depth T x = S (t_depth T p). Proof. intros H. apply (proj2 (proj2 (proj2 HT)) x p H). Qed.
Lemma not_root x p : par x = Some p -> x <> root. Proof. intros H ->. rewrite root_parent in H. discriminate. Qed.

(** [below c x]: x is c or lies in the subtree under c *)
Inductive below (c : nat) : nat -> Prop :=
| below_refl : below c c
| below_up x p : par x = Some p -> below c p -> below c x.
(** a is strictly above x *)
Definition above (a x : nat) : Prop := exists c, par c = Some a /\ below c x.

Lemma below_depth c x : below c x -> (t_depth T c <= t_depth T x)%nat /\ (t_depth T c = t_depth T x -> c = x).
Proof. induction 1 as [|x p P B [IH1 IH2]]; [split; lia|]. pose proof (parent_depth _ _ P). split; lia. Qed.
Lemma below_trans a b c : below a b -> below b c -> below a c.
Proof. intros H. induction 1 as [|x p P B IH]; [exact H|]. apply (below_up a x p P IH). Qed.
Lemma below_root x : below root x.
Proof.
  remember (t_depth T x) as d eqn:D. revert x D. induction d as [|d IH]; intros x D.
  - destruct (Nat.eq_dec x root) as [->|N]; [constructor|]. destruct (has_parent x N) as [p P]. rewrite (parent_depth _ _ P) in D. discriminate.
  - destruct (Nat.eq_dec x root) as [->|N]; [constructor|]. destruct (has_parent x N) as [p P]. rewrite (parent_depth _ _ P) in D.
    apply (below_up _ x p P). apply IH. lia.
Qed.
Lemma below_comparable a b x : below a x -> below b x -> below a b \/ below b a.
Proof.
  induction 1 as [|x p P B IH]; intros H; [right; exact H|]. inversion H as [E|? q Q B']; subst.
  - left. apply (below_up _ x p P B).
  - rewrite P in Q. injection Q as <-. apply IH, B'.
Qed.
Lemma child_unique a c c' x : par c = Some a -> par c' = Some a -> below c x -> below c' x -> c = c'.
Proof.
  intros P P' B B'. pose proof (parent_depth _ _ P). pose proof (parent_depth _ _ P').
  destruct (below_comparable _ _ _ B B') as [H1|H1]; [|symmetry]; apply (proj2 (below_depth _ _ H1)); lia.
Qed.
Lemma above_parent a x p : par x = Some p -> above a x -> a = p \/ above a p.
Proof.
  intros P (c & C & B). inversion B as [E|? q Q B']; subst.
  - left. congruence.
  - right. rewrite P in Q. injection Q as <-. exists c. split; assumption.
Qed.
Lemma above_root a : ~ above a root.
Proof. intros (c & P & B). inversion B as [E|? q Q B']; subst; [rewrite root_parent in P|rewrite root_parent in Q]; discriminate. Qed.
Lemma parent_above x p : par x = Some p -> above p x.
Proof. intros P. exists x. split; [exact P|constructor]. Qed.
Lemma above_trans a b x : above a b -> below b x -> above a x.
Proof. intros (c & P & B) H. exists c. split; [exact P|]. apply (below_trans _ b); assumption. Qed.
Lemma below_other c x : below c x -> x <> c -> t_core T c = false.
Proof.
  induction 1 as [|x p P B IH]; [congruence|]. intros _. destruct (Nat.eq_dec p c) as [->|N]; [apply (parent_core _ _ P)|apply IH, N].
Qed.

(** ** what is recorded where *)
Definition hasB (s : net) (x : nat) (n : string) (o : nat) : Prop := exists g r, In (mkB n g r o) (n_brokers (nodes s x)).
Definition hasF (s : net) (x : nat) (n : string) (o : nat) : Prop := exists g r, In (mkF n g r o) (n_feds (nodes s x)).
Definition regB (s : net) (n : string) (g : Z) (o : nat) : Prop := exists r, In (mkB n g r o) (n_brokers (nodes s root)).
Definition regF (s : net) (n : string) (g : Z) (o : nat) : Prop := exists r, In (mkF n g r o) (n_feds (nodes s root)).
Definition owner (s : net) (g : Z) (o : nat) : Prop := (exists n, regB s n g o) \/ (exists n, regF s n g o).
Definition leads (s : net) (a : nat) (r : Z) (o : nat) : Prop := exists c, In (r, c) (n_routes (nodes s a)) /\ below c o.
Definition known (s : net) (a : nat) (g : Z) : Prop := lookup (n_table (nodes s a)) g <> None.
Definition knownAbove (s : net) (x : nat) (g : Z) : Prop := forall a, above a x -> known s a g.
Definition inLocal (s : net) (x : nat) (n : string) : Prop := In n (map fst (n_local (nodes s x))).

(** a message on the way from y to z *)
Definition okp (s : net) (q : packet) : Prop :=
  let '(y, z, m) := q in
  match m with
  | RegBroker n src a c => c = 0 /\ par y = Some z /\
      ((src = invalidId /\ a = y /\ n = t_name T y) \/
       (src = n_id (nodes s y) /\ src <> 0 /\ a <> y /\ below y a /\ hasB s y n a))
  | RegFed n src c o => par y = Some z /\ src = n_id (nodes s y) /\ src <> 0 /\ below y o /\
      ((o = y /\ inLocal s y n) \/ (o <> y /\ hasF s y n o))
  | BrokerAck n src dst err o => par z = Some y /\ below z o /\
      ((o = z /\ n = t_name T z) \/ (o <> z /\ hasB s z n o /\ n_id (nodes s z) <> 0)) /\
      (if err then dst = 0 else regB s n dst o /\ knownAbove s z dst /\ src = n_id (nodes s y) /\ src <> 0)
  | FedAck n src dst err o => par z = Some y /\ below z o /\
      ((o = z /\ inLocal s z n) \/ (o <> z /\ hasF s z n o)) /\
      (if err then dst = 0 else regF s n dst o /\ knownAbove s z dst)
  end.

(** one node *)
Record nodeOk (s : net) (x : nat) : Prop := mkNodeOk {
  k_static : n_root (nodes s x) = Nat.eqb x root /\ n_core (nodes s x) = t_core T x /\ n_name (nodes s x) = t_name T x /\ n_ub (nodes s x) = false;
  k_root : x = root -> n_id (nodes s x) = rootId /\ n_higher (nodes s x) = 0 /\ n_delay (nodes s x) = [];
  k_id : x <> root -> (n_id (nodes s x) = 0 /\ n_higher (nodes s x) = 0) \/
         (regB s (t_name T x) (n_id (nodes s x)) x /\ knownAbove s x (n_id (nodes s x)) /\
          forall p, par x = Some p -> n_id (nodes s p) <> 0 /\ n_higher (nodes s x) = n_id (nodes s p));
  k_namesB : NoDup (map be_name (n_brokers (nodes s x)));
  k_namesF : NoDup (map fe_name (n_feds (nodes s x)));
  k_routes : (forall r c, In (r, c) (n_routes (nodes s x)) -> par c = Some x /\ 1 <= r < n_rc (nodes s x)) /\
             NoDup (map fst (n_routes (nodes s x))) /\ 1 <= n_rc (nodes s x);
  k_table : forall g r, lookup (n_table (nodes s x)) g = Some r -> g = 0 \/ exists o, owner s g o /\ leads s x r o;
  k_brokers : forall n g r o, In (mkB n g r o) (n_brokers (nodes s x)) ->
     exists c, In (r, c) (n_routes (nodes s x)) /\ below c o /\
       ((o = c /\ n = t_name T c) \/ (o <> c /\ hasB s c n o /\ n_id (nodes s c) <> 0));
  k_feds : forall n g r o, In (mkF n g r o) (n_feds (nodes s x)) ->
     exists c, In (r, c) (n_routes (nodes s x)) /\ below c o /\ ((o = c /\ inLocal s c n) \/ (o <> c /\ hasF s c n o));
  k_local : forall n g, In (n, g) (n_local (nodes s x)) -> t_core T x = true /\ (g = invalidId \/ (regF s n g x /\ knownAbove s x g));
  k_delay : forall m, In m (n_delay (nodes s x)) -> exists n src a, m = RegBroker n src a 0 /\ hasB s x n a /\ above x a;
  k_core : t_core T x = true -> n_brokers (nodes s x) = [] /\ n_feds (nodes s x) = [] /\ n_delay (nodes s x) = []
}.

Definition rootOk (s : net) : Prop :=
  (forall k e, nth_error (n_brokers (nodes s root)) k = Some e -> be_gid e = newBrokerId (Z.of_nat k)) /\
  (forall k e, nth_error (n_feds (nodes s root)) k = Some e -> exists c, 0 <= c <= 16 /\ fe_gid e = newFederateId (Z.of_nat k) c).

(** ** one registration is answered at most once *)
Definition isReg (c : nat) (n : string) (q : packet) : bool :=
  let '(y, _, m) := q in match m with RegFed n' _ _ _ => Nat.eqb y c && String.eqb n' n | _ => false end.
Definition isAck (c : nat) (n : string) (q : packet) : bool :=
  let '(_, z, m) := q in match m with FedAck n' _ _ _ _ => Nat.eqb z c && String.eqb n' n | _ => false end.
Definition cnt (f : packet -> bool) (l : list packet) : nat := length (filter f l).
Definition pend (s : net) (p c : nat) (n : string) : nat :=
  match findF (n_feds (nodes s p)) n with
  | Some e => if (fe_gid e =? invalidId) && match lookup (n_routes (nodes s p)) (fe_route e) with Some c' => Nat.eqb c' c | None => false end then 1 else 0
  | None => 0
  end.
Definition settled (s : net) (c : nat) (n : string) : nat :=
  match findF (n_feds (nodes s c)) n with Some e => if fe_gid e =? invalidId then 0 else 1 | None => 0 end.
Definition here (s : net) (c : nat) (n : string) : nat := match findF (n_feds (nodes s c)) n with Some _ => 1 | None => 0 end.
Definition tok (s : net) (p c : nat) (n : string) : nat :=
  (cnt (isReg c n) (wire s) + pend s p c n + cnt (isAck c n) (wire s) + settled s c n)%nat.
Definition toksOk (s : net) : Prop := forall p c n, par c = Some p -> t_core T c = false -> (tok s p c n <= here s c n)%nat.

Record inv (s : net) : Prop := mkInv {
  i_nodes : forall x, nodeOk s x;
  i_rootOk : rootOk s;
  i_wire : forall q, In q (wire s) -> okp s q;
  i_toks : toksOk s
}.
Definition small (s : net) : Prop :=
  Z.of_nat (length (n_brokers (nodes s root))) <= limit /\ Z.of_nat (length (n_feds (nodes s root))) <= limit.

Lemma inv0 : inv (net0 T).
Proof.
  constructor.
  - intros x. constructor; cbn [net0 nodes node0 n_root n_core n_name n_ub n_id n_higher n_delay n_brokers n_feds n_routes n_rc n_table n_local map lookup].
    + auto.
    + intros ->. rewrite Nat.eqb_refl. auto.
    + intros N. left. destruct (Nat.eqb_spec x root); [contradiction|]. split; reflexivity.
    + constructor.
    + constructor.
    + split; [intros r c []|]. split; [constructor|lia].
    + intros g r H. discriminate.
    + intros n g r o [].
    + intros n g r o [].
    + intros n g [].
    + intros m [].
    + auto.
  - split; intros k e H; cbn in H; destruct k; discriminate.
  - intros q H. contradiction.
  - intros p c n P C. cbn. lia.
Qed.

(** ** growth *)
Record nle (a b : node) : Prop := mkNle {
  l_B : forall n o, (exists g r, In (mkB n g r o) (n_brokers a)) -> exists g r, In (mkB n g r o) (n_brokers b);
  l_F : forall n o, (exists g r, In (mkF n g r o) (n_feds a)) -> exists g r, In (mkF n g r o) (n_feds b);
  l_root : n_root a = true -> incl (n_brokers a) (n_brokers b) /\ incl (n_feds a) (n_feds b);
  l_table : forall g, lookup (n_table a) g <> None -> lookup (n_table b) g <> None;
  l_routes : incl (n_routes a) (n_routes b);
  l_local : incl (map fst (n_local a)) (map fst (n_local b));
  l_id : n_id a <> 0 -> n_id b = n_id a
}.
Lemma nle_refl a : nle a a.
Proof. constructor; auto using incl_refl. Qed.
Definition le (s s' : net) : Prop := forall x, nle (nodes s x) (nodes s' x).

Section Grow.
Variables s s' : net.
Hypothesis L : le s s'.
Hypothesis R : n_root (nodes s root) = true.
Lemma le_hasB x n o : hasB s x n o -> hasB s' x n o. Proof. apply (l_B _ _ (L x)). Qed.
Lemma le_hasF x n o : hasF s x n o -> hasF s' x n o. Proof. apply (l_F _ _ (L x)). Qed.
Lemma le_regB n g o : regB s n g o -> regB s' n g o. Proof. intros [r H]. exists r. apply (proj1 (l_root _ _ (L root) R)), H. Qed.
Lemma le_regF n g o : regF s n g o -> regF s' n g o. Proof. intros [r H]. exists r. apply (proj2 (l_root _ _ (L root) R)), H. Qed.
Lemma le_owner g o : owner s g o -> owner s' g o.
Proof. intros [[n H]|[n H]]; [left|right]; exists n; [apply le_regB|apply le_regF]; exact H. Qed.
Lemma le_leads a r o : leads s a r o -> leads s' a r o.
Proof. intros (c & H & B). exists c. split; [apply (l_routes _ _ (L a)), H|exact B]. Qed.
Lemma le_known a g : known s a g -> known s' a g. Proof. apply (l_table _ _ (L a)). Qed.
Lemma le_knownAbove x g : knownAbove s x g -> knownAbove s' x g. Proof. intros H a A. apply le_known, H, A. Qed.
Lemma le_inLocal x n : inLocal s x n -> inLocal s' x n. Proof. apply (l_local _ _ (L x)). Qed.
Lemma le_id x : n_id (nodes s x) <> 0 -> n_id (nodes s' x) = n_id (nodes s x). Proof. apply (l_id _ _ (L x)). Qed.
Lemma le_id0 x : n_id (nodes s x) <> 0 -> n_id (nodes s' x) <> 0. Proof. intros H. rewrite le_id; exact H. Qed.
Lemma le_okp q : okp s q -> okp s' q.
Proof.
  destruct q as [[y z] [n src a c|n src c o|n src dst err o|n src dst err o]]; cbn [okp].
  - intros (A & B & C). split; [exact A|]. split; [exact B|]. destruct C as [C|(C & D & E & F & G)]; [left; exact C|right].
    split; [|auto using le_hasB]. rewrite le_id; congruence.
  - intros (A & B & C & D & E). split; [exact A|]. split; [rewrite le_id; congruence|]. split; [exact C|]. split; [exact D|].
    destruct E as [[E F]|[E F]]; auto using le_inLocal, le_hasF.
  - intros (A & B & C & D). split; [exact A|]. split; [exact B|]. split.
    + destruct C as [C|(C & E & F)]; auto using le_hasB, le_id0.
    + destruct err; [exact D|]. destruct D as (D & E & F & G). split; [apply le_regB, D|]. split; [apply le_knownAbove, E|]. split; [rewrite le_id; congruence|exact G].
  - intros (A & B & C & D). split; [exact A|]. split; [exact B|]. split.
    + destruct C as [[C E]|[C E]]; auto using le_inLocal, le_hasF.
    + destruct err; [exact D|]. destruct D as (D & E). auto using le_regF, le_knownAbove.
Qed.
Lemma le_nodeOk x : nodes s' x = nodes s x -> nodeOk s x -> nodeOk s' x.
Proof.
  intros E [K1 K2 K3 K4 K5 K6 K7 K8 K9 K10 K11 K12]. constructor; rewrite ?E; auto.
  - intros N. destruct (K3 N) as [H|(H1 & H2 & H3)]; [left; exact H|]. right. repeat split; auto using le_regB, le_knownAbove.
    + apply le_id0. apply (H3 p), H.
    + rewrite le_id by apply (H3 p H). apply (H3 p), H.
  - intros g r H. destruct (K7 g r H) as [|(o & H1 & H2)]; [left; assumption|]. right. exists o. split; [apply le_owner|apply le_leads]; assumption.
  - intros n g r o H. destruct (K8 n g r o H) as (c & H1 & H2 & H3). exists c. split; [exact H1|]. split; [exact H2|].
    destruct H3 as [H3|(H3 & H4 & H5)]; [left; exact H3|right; auto using le_hasB, le_id0].
  - intros n g r o H. destruct (K9 n g r o H) as (c & H1 & H2 & H3). exists c. split; [exact H1|]. split; [exact H2|].
    destruct H3 as [[H3 H4]|[H3 H4]]; auto using le_inLocal, le_hasF.
  - intros n g H. destruct (K10 n g H) as (H1 & [H2|[H2 H3]]); split; auto using le_regF, le_knownAbove.
  - intros m H. destruct (K11 m H) as (n & src & a & H1 & H2 & H3). exists n, src, a. auto using le_hasB.
Qed.
End Grow.

Lemma root_flag s : inv s -> n_root (nodes s root) = true.
Proof. intros I. destruct (k_static _ _ (i_nodes _ I root)) as [H _]. rewrite H. apply Nat.eqb_refl. Qed.

(** updating one node *)
Definition upd (s : net) (y : nat) (st : node) (w : list packet) : net := mkNet (setNode (nodes s) y st) w.
Lemma upd_same s y st w : nodes (upd s y st w) y = st.
Proof. cbn. unfold setNode. rewrite Nat.eqb_refl. reflexivity. Qed.
Lemma upd_other s y st w x : x <> y -> nodes (upd s y st w) x = nodes s x.
Proof. intros N. cbn. unfold setNode. apply Nat.eqb_neq in N. rewrite N. reflexivity. Qed.
Lemma upd_le s y st w : nle (nodes s y) st -> le s (upd s y st w).
Proof. intros H x. destruct (Nat.eq_dec x y) as [->|N]; [rewrite upd_same; exact H|rewrite upd_other by exact N; apply nle_refl]. Qed.
Lemma upd_inv s y st w : inv s -> nle (nodes s y) st -> nodeOk (upd s y st w) y -> rootOk (upd s y st w) ->
  (forall q, In q w -> In q (wire s) \/ okp (upd s y st w) q) -> toksOk (upd s y st w) -> inv (upd s y st w).
Proof.
  intros I H K RK W TK. pose proof (upd_le s y st w H) as L. pose proof (root_flag s I) as R. constructor; [|exact RK| |exact TK].
  - intros x. destruct (Nat.eq_dec x y) as [->|N]; [exact K|]. apply (le_nodeOk s); auto; [apply upd_other, N|apply (i_nodes _ I)].
  - intros q Q. destruct (W q Q) as [Q'|Q']; [|exact Q']. apply (le_okp s); auto. apply (i_wire _ I), Q'.
Qed.

(** ** identifiers of registered nodes and federates *)
Lemma nodup_names_B s x e e' : nodeOk s x -> In e (n_brokers (nodes s x)) -> In e' (n_brokers (nodes s x)) -> be_name e = be_name e' -> e = e'.
Proof.
  intros K A B E. pose proof (in_findB _ _ (k_namesB _ _ K) A) as F. pose proof (in_findB _ _ (k_namesB _ _ K) B) as F'. rewrite E in F. congruence.
Qed.
Lemma nodup_names_F s x e e' : nodeOk s x -> In e (n_feds (nodes s x)) -> In e' (n_feds (nodes s x)) -> fe_name e = fe_name e' -> e = e'.
Proof.
  intros K A B E. pose proof (in_findF _ _ (k_namesF _ _ K) A) as F. pose proof (in_findF _ _ (k_namesF _ _ K) B) as F'. rewrite E in F. congruence.
Qed.
Lemma regB_name s n g o g' o' : inv s -> regB s n g o -> regB s n g' o' -> g = g' /\ o = o'.
Proof. intros I [r A] [r' B]. pose proof (nodup_names_B s root _ _ (i_nodes _ I root) A B eq_refl) as E. injection E as -> -> ->. auto. Qed.
Lemma regF_name s n g o g' o' : inv s -> regF s n g o -> regF s n g' o' -> g = g' /\ o = o'.
Proof. intros I [r A] [r' B]. pose proof (nodup_names_F s root _ _ (i_nodes _ I root) A B eq_refl) as E. injection E as -> -> ->. auto. Qed.

Lemma regB_index s n g o : inv s -> small s -> regB s n g o ->
  exists k e, nth_error (n_brokers (nodes s root)) k = Some e /\ be_own e = o /\ be_name e = n /\ 0 <= Z.of_nat k < limit /\ g = idOf (Broker (Z.of_nat k)).
Proof.
  intros I S [r A]. destruct (In_nth_error _ _ A) as [k K]. exists k, (mkB n g r o). split; [exact K|]. split; [reflexivity|]. split; [reflexivity|].
  assert (k < length (n_brokers (nodes s root)))%nat by (apply nth_error_Some; congruence). destruct S as [S _]. split; [lia|].
  exact (proj1 (i_rootOk _ I) k _ K).
Qed.
Lemma regF_index s n g o : inv s -> small s -> regF s n g o ->
  exists k e c, nth_error (n_feds (nodes s root)) k = Some e /\ fe_own e = o /\ fe_name e = n /\ 0 <= Z.of_nat k < limit /\ 0 <= c <= 16 /\ g = idOf (Federate (Z.of_nat k) c).
Proof.
  intros I S [r A]. destruct (In_nth_error _ _ A) as [k K]. destruct (proj2 (i_rootOk _ I) k _ K) as (c & C & E). exists k, (mkF n g r o), c.
  split; [exact K|]. split; [reflexivity|]. split; [reflexivity|].
  assert (k < length (n_feds (nodes s root)))%nat by (apply nth_error_Some; congruence). destruct S as [_ S]. split; [lia|]. split; [exact C|]. exact E.
Qed.
Lemma legal_broker k : 0 <= k < limit -> legal (Broker k). Proof. intros H. exact H. Qed.
Lemma legal_fed k c : 0 <= k < limit -> 0 <= c <= 16 -> legal (Federate k c). Proof. intros H C. split; [exact H|]. change (2 ^ 16) with 65536. lia. Qed.

Lemma owner_unique s g o o' : inv s -> small s -> owner s g o -> owner s g o' -> o = o'.
Proof.
  intros I S [[n A]|[n A]] [[n' B]|[n' B]].
  - destruct (regB_index s n g o I S A) as (k & e & K & <- & _ & L & E), (regB_index s n' g o' I S B) as (k' & e' & K' & <- & _ & L' & E').
    destruct (C26_ids_are_distinct _ _ (legal_broker _ L) (legal_broker _ L') ltac:(congruence)) as [H|(? & ? & ? & H & _)]; [|discriminate].
    injection H as H. apply Nat2Z.inj in H. subst k'. congruence.
  - destruct (regB_index s n g o I S A) as (k & e & K & <- & _ & L & E), (regF_index s n' g o' I S B) as (k' & e' & c' & K' & <- & _ & L' & C' & E').
    destruct (C26_ids_are_distinct _ _ (legal_broker _ L) (legal_fed _ _ L' C') ltac:(congruence)) as [H|(? & ? & ? & H & _)]; discriminate.
  - destruct (regF_index s n g o I S A) as (k & e & c & K & <- & _ & L & C & E), (regB_index s n' g o' I S B) as (k' & e' & K' & <- & _ & L' & E').
    destruct (C26_ids_are_distinct _ _ (legal_fed _ _ L C) (legal_broker _ L') ltac:(congruence)) as [H|(? & ? & ? & H & H')]; discriminate.
  - destruct (regF_index s n g o I S A) as (k & e & c & K & <- & _ & L & C & E), (regF_index s n' g o' I S B) as (k' & e' & c' & K' & <- & _ & L' & C' & E').
    destruct (C26_ids_are_distinct _ _ (legal_fed _ _ L C) (legal_fed _ _ L' C') ltac:(congruence)) as [H|(? & ? & ? & H & H')].
    + injection H as H _. apply Nat2Z.inj in H. subst k'. congruence.
    + injection H as <- <-. injection H' as H' _. apply Nat2Z.inj in H'. subst k'. congruence.
Qed.
Lemma owner_valid s g o : inv s -> small s -> owner s g o -> isValid g = true /\ 0 < g /\ g <> rootId.
Proof.
  intros I S O. assert (X : exists e, legal e /\ e <> Root /\ g = idOf e).
  { destruct O as [[n A]|[n A]].
    - destruct (regB_index s n g o I S A) as (k & e & K & _ & _ & L & E). exists (Broker (Z.of_nat k)). split; [exact L|]. split; [discriminate|exact E].
    - destruct (regF_index s n g o I S A) as (k & e & c & K & _ & _ & L & C & E). exists (Federate (Z.of_nat k) c). split; [apply legal_fed; assumption|]. split; [discriminate|exact E]. }
  destruct X as (e & L & N & ->). destruct (C26_ids_are_classified e L) as (_ & _ & V & P & _). split; [exact V|]. split; [lia|].
  intros E. destruct (C26_ids_are_distinct e Root L Logic.I E) as [H|(? & ? & ? & _ & H)]; [contradiction|discriminate].
Qed.
Lemma id_owner s x : inv s -> x <> root -> n_id (nodes s x) <> 0 -> owner s (n_id (nodes s x)) x.
Proof.
  intros I N H. destruct (k_id _ _ (i_nodes _ I x) N) as [[H' _]|(H' & _)]; [contradiction|]. left. exists (t_name T x). exact H'.
Qed.
Lemma id_unique s x y : inv s -> small s -> n_id (nodes s x) <> 0 -> n_id (nodes s x) = n_id (nodes s y) -> x = y.
Proof.
  intros I S N E. destruct (Nat.eq_dec x root) as [->|X], (Nat.eq_dec y root) as [->|Y]; [reflexivity| | |].
  - destruct (k_root _ _ (i_nodes _ I root) eq_refl) as (R & _). exfalso. pose proof (id_owner s y I Y ltac:(congruence)) as O.
    destruct (owner_valid s _ _ I S O) as (_ & _ & H). congruence.
  - destruct (k_root _ _ (i_nodes _ I root) eq_refl) as (R & _). exfalso. pose proof (id_owner s x I X N) as O.
    destruct (owner_valid s _ _ I S O) as (_ & _ & H). congruence.
  - apply (owner_unique s (n_id (nodes s x))); auto; [apply id_owner; assumption|rewrite E; apply id_owner; congruence].
Qed.
Lemma higher_is s x : inv s -> n_higher (nodes s x) = 0 \/ exists p, par x = Some p /\ n_id (nodes s p) <> 0 /\ n_higher (nodes s x) = n_id (nodes s p).
Proof.
  intros I. destruct (Nat.eq_dec x root) as [->|X].
  - left. apply (k_root _ _ (i_nodes _ I root) eq_refl).
  - destruct (k_id _ _ (i_nodes _ I x) X) as [[_ H]|(_ & _ & H)]; [left; exact H|]. right. destruct (has_parent x X) as [p P]. exists p. split; [exact P|]. apply H, P.
Qed.
Lemma routes_lookup s x r c : nodeOk s x -> In (r, c) (n_routes (nodes s x)) -> lookup (n_routes (nodes s x)) r = Some c.
Proof. intros K. apply in_lookup, (k_routes _ _ K). Qed.
Lemma routes_pos s x r c : nodeOk s x -> In (r, c) (n_routes (nodes s x)) -> r <> parentRoute.
Proof. intros K H. destruct (proj1 (k_routes _ _ K) r c H) as [_ L]. unfold parentRoute. lia. Qed.

(** the route for something below: it leads to the child above it *)
Lemma getRoute_down s a c o g : inv s -> small s -> par c = Some a -> below c o -> owner s g o -> known s a g -> g <> n_higher (nodes s a) ->
  exists r, getRoute (nodes s a) g = r /\ In (r, c) (n_routes (nodes s a)).
Proof.
  intros I S P B O K NH. destruct (owner_valid s g o I S O) as (V & G0 & _). unfold getRoute, parentId.
  destruct (Z.eqb_spec g 0); [lia|]. destruct (Z.eqb_spec g (n_higher (nodes s a))); [contradiction|]. cbn [orb].
  unfold known in K. destruct (lookup (n_table (nodes s a)) g) as [r|] eqn:E; [|congruence]. exists r. split; [reflexivity|].
  destruct (k_table _ _ (i_nodes _ I a) g r E) as [|(o' & O' & c' & C & B')]; [lia|]. assert (o' = o) by (apply (owner_unique s g); assumption). subst o'.
  destruct (proj1 (k_routes _ _ (i_nodes _ I a)) r c' C) as [P' _]. assert (c = c') by (apply (child_unique a c c' o); assumption). subst c'. exact C.
Qed.
Lemma route_to_child s a c : inv s -> small s -> par c = Some a -> n_id (nodes s c) <> 0 ->
  exists r, getRoute (nodes s a) (n_id (nodes s c)) = r /\ In (r, c) (n_routes (nodes s a)).
Proof.
  intros I S P N. pose proof (not_root _ _ P) as X. apply (getRoute_down s a c c); auto; [constructor|apply id_owner; assumption| |].
  - destruct (k_id _ _ (i_nodes _ I c) X) as [[H _]|(_ & H & _)]; [contradiction|]. apply H, parent_above, P.
  - intros E. destruct (higher_is s a I) as [H|(p & Q & H0 & H)]; [congruence|]. assert (c = p) by (apply (id_unique s); congruence). subst p.
    pose proof (parent_depth _ _ P). pose proof (parent_depth _ _ Q). lia.
Qed.

(** ** counting *)
Lemma cnt_app f a b : cnt f (a ++ b) = (cnt f a + cnt f b)%nat.
Proof. unfold cnt. rewrite filter_app, app_length. reflexivity. Qed.
Lemma cnt_without f l k q : nth_error l k = Some q -> cnt f l = ((if f q then 1 else 0) + cnt f (without k l))%nat.
Proof.
  revert k. induction l as [|a l IH]; intros k H; destruct k; cbn in H; try discriminate.
  - injection H as ->. unfold cnt. cbn [filter without]. destruct (f q); reflexivity.
  - specialize (IH k H). unfold cnt in *. cbn [filter without]. destruct (f a); cbn [length]; lia.
Qed.
Lemma cnt_without_le f l k : (cnt f (without k l) <= cnt f l)%nat.
Proof.
  revert k. induction l as [|a l IH]; intros k; destruct k; cbn [without]; unfold cnt in *; cbn [filter]; try lia; destruct (f a); cbn [length]; try lia.
  - specialize (IH k). lia.
  - specialize (IH k). lia.
Qed.
Lemma in_without l k (q : packet) : In q (without k l) -> In q l.
Proof. revert k. induction l as [|a l IH]; intros k; destruct k; cbn; try tauto. intros [->|H]; [left; reflexivity|right; apply (IH k), H]. Qed.

Lemma le_refl s : le s s. Proof. intros x. apply nle_refl. Qed.
Lemma inv_ext s s' : (forall x, nodes s' x = nodes s x) -> wire s' = wire s -> inv s -> inv s'.
Proof.
  intros N W I. assert (L : le s s') by (intros x; rewrite N; apply nle_refl). pose proof (root_flag s I) as R. constructor.
  - intros x. apply (le_nodeOk s s' L R x (N x)), (i_nodes _ I).
  - unfold rootOk. rewrite N. apply (i_rootOk _ I).
  - intros q. rewrite W. intros Q. apply (le_okp s s' L R), (i_wire _ I), Q.
  - intros p c n P C. unfold tok, pend, settled, here. rewrite W, !N. apply (i_toks _ I p c n P C).
Qed.
Lemma wire_inv s w : inv s -> (forall q, In q w -> In q (wire s) \/ okp s q) ->
  (forall c n, t_core T c = false -> (cnt (isReg c n) w <= cnt (isReg c n) (wire s))%nat /\ (cnt (isAck c n) w <= cnt (isAck c n) (wire s))%nat) ->
  inv (mkNet (nodes s) w).
Proof.
  intros I W C. assert (L : le s (mkNet (nodes s) w)) by (intros x; apply nle_refl). pose proof (root_flag s I) as R. constructor.
  - intros x. apply (le_nodeOk s _ L R x eq_refl), (i_nodes _ I).
  - apply (i_rootOk _ I).
  - intros q Q. apply (le_okp s _ L R). destruct (W q Q) as [H|H]; [apply (i_wire _ I), H|exact H].
  - intros p c n P K. pose proof (i_toks _ I p c n P K) as H. destruct (C c n K) as [C1 C2]. unfold tok in *. cbn [wire].
    change (pend (mkNet (nodes s) w) p c n) with (pend s p c n). change (settled (mkNet (nodes s) w) c n) with (settled s c n).
    change (here (mkNet (nodes s) w) c n) with (here s c n). lia.
Qed.
Lemma lose_inv s k : inv s -> inv (mkNet (nodes s) (without k (wire s))).
Proof.
  intros I. apply wire_inv; [exact I| |].
  - intros q Q. left. apply (in_without _ k), Q.
  - intros c n _. split; apply cnt_without_le.
Qed.
Lemma connect_inv s x p : inv s -> par x = Some p -> inv (mkNet (nodes s) (wire s ++ [(x, p, RegBroker (t_name T x) invalidId x 0)])).
Proof.
  intros I P. apply wire_inv; [exact I| |].
  - intros q Q. apply in_app_or in Q. destruct Q as [Q|[<-|[]]]; [left; exact Q|]. right. cbn [okp]. auto 8.
  - intros c n _. rewrite !cnt_app. cbn. lia.
Qed.

(** updates which leave the federates alone *)
Lemma toks_same s s' : inv s -> (forall x, n_feds (nodes s' x) = n_feds (nodes s x)) ->
  (forall x, exists l, n_routes (nodes s' x) = n_routes (nodes s x) ++ l) ->
  (forall c n, t_core T c = false -> (cnt (isReg c n) (wire s') <= cnt (isReg c n) (wire s))%nat /\ (cnt (isAck c n) (wire s') <= cnt (isAck c n) (wire s))%nat) ->
  toksOk s'.
Proof.
  intros I F R C p c n P K. pose proof (i_toks _ I p c n P K) as H. destruct (C c n K) as [C1 C2].
  assert (E : pend s' p c n = pend s p c n).
  { unfold pend. rewrite F. destruct (findF (n_feds (nodes s p)) n) as [e|] eqn:Q; [|reflexivity]. destruct (findF_in _ _ _ Q) as [J _].
    destruct e as [n' g r o]. destruct (k_feds _ _ (i_nodes _ I p) n' g r o J) as (c' & A & _). apply (routes_lookup s p) in A; [|apply (i_nodes _ I)].
    cbn [fe_route]. destruct (R p) as [l ->]. rewrite lookup_app, A. reflexivity. }
  unfold tok, settled, here in *. rewrite E, F. lia.
Qed.

(** a new route to a child *)
Definition addRoute (st : node) (c : nat) : node := set_n_rc (n_rc st + 1) (set_n_routes (n_routes st ++ [(n_rc st, c)]) st).
Lemma upd_routes s y st w (H : exists l, n_routes st = n_routes (nodes s y) ++ l) x : exists l, n_routes (nodes (upd s y st w) x) = n_routes (nodes s x) ++ l.
Proof. destruct (Nat.eq_dec x y) as [->|N]; [rewrite upd_same; exact H|rewrite upd_other by exact N; exists []; rewrite app_nil_r; reflexivity]. Qed.
Lemma upd_feds s y st w (H : n_feds st = n_feds (nodes s y)) x : n_feds (nodes (upd s y st w) x) = n_feds (nodes s x).
Proof. destruct (Nat.eq_dec x y) as [->|N]; [rewrite upd_same; exact H|rewrite upd_other by exact N; reflexivity]. Qed.
(** the facts about a node after a change, clause by clause: what is old stays true, what is new must be shown *)
Lemma grow_ok s s' y : inv s -> le s s' ->
  n_root (nodes s' y) = n_root (nodes s y) /\ n_core (nodes s' y) = n_core (nodes s y) /\ n_name (nodes s' y) = n_name (nodes s y) /\ n_ub (nodes s' y) = false ->
  (n_id (nodes s' y) = n_id (nodes s y) /\ n_higher (nodes s' y) = n_higher (nodes s y)) \/
  (y <> root /\ regB s' (t_name T y) (n_id (nodes s' y)) y /\ knownAbove s' y (n_id (nodes s' y)) /\
   forall p, par y = Some p -> n_id (nodes s' p) <> 0 /\ n_higher (nodes s' y) = n_id (nodes s' p)) ->
  NoDup (map be_name (n_brokers (nodes s' y))) -> NoDup (map fe_name (n_feds (nodes s' y))) ->
  ((forall r c, In (r, c) (n_routes (nodes s' y)) -> In (r, c) (n_routes (nodes s y)) \/ (par c = Some y /\ r = n_rc (nodes s y) /\ n_rc (nodes s' y) = r + 1)) /\
   NoDup (map fst (n_routes (nodes s' y))) /\ n_rc (nodes s y) <= n_rc (nodes s' y)) ->
  (forall g r, lookup (n_table (nodes s' y)) g = Some r -> lookup (n_table (nodes s y)) g = Some r \/ g = 0 \/ exists o, owner s' g o /\ leads s' y r o) ->
  (forall n g r o, In (mkB n g r o) (n_brokers (nodes s' y)) -> (exists g0, In (mkB n g0 r o) (n_brokers (nodes s y))) \/
     exists c, In (r, c) (n_routes (nodes s' y)) /\ below c o /\ ((o = c /\ n = t_name T c) \/ (o <> c /\ hasB s' c n o /\ n_id (nodes s' c) <> 0))) ->
  (forall n g r o, In (mkF n g r o) (n_feds (nodes s' y)) -> (exists g0, In (mkF n g0 r o) (n_feds (nodes s y))) \/
     exists c, In (r, c) (n_routes (nodes s' y)) /\ below c o /\ ((o = c /\ inLocal s' c n) \/ (o <> c /\ hasF s' c n o))) ->
  (forall n g, In (n, g) (n_local (nodes s' y)) -> In (n, g) (n_local (nodes s y)) \/
     (t_core T y = true /\ (g = invalidId \/ (regF s' n g y /\ knownAbove s' y g)))) ->
  (forall m, In m (n_delay (nodes s' y)) -> In m (n_delay (nodes s y)) \/ (y <> root /\ exists n src a, m = RegBroker n src a 0 /\ hasB s' y n a /\ above y a)) ->
  (t_core T y = true -> n_brokers (nodes s' y) = [] /\ n_feds (nodes s' y) = [] /\ n_delay (nodes s' y) = []) ->
  nodeOk s' y.
Proof.
  intros I LE HS HI HNB HNF HR HTb HB HF HL HD HC. pose proof (root_flag s I) as R. pose proof (i_nodes _ I y) as K.
  destruct K as [K1 K2 K3 K4 K5 K6 K7 K8 K9 K10 K11 K12]. constructor; auto.
  - destruct HS as (-> & -> & -> & ->), K1 as (A & B & C & D). auto.
  - intros E. destruct (K2 E) as (A & B & C). destruct HI as [[-> ->]|[N _]]; [|contradiction]. split; [exact A|]. split; [exact B|].
    destruct (n_delay (nodes s' y)) as [|m l] eqn:Q; [reflexivity|]. exfalso. destruct (HD m (or_introl eq_refl)) as [H|[H _]]; [rewrite C in H; contradiction|contradiction].
  - intros N. destruct HI as [[-> ->]|(_ & H1 & H2 & H3)]; [|right; auto]. destruct (K3 N) as [H|(H1 & H2 & H3)]; [left; exact H|right].
    split; [apply (le_regB s _ LE R), H1|]. split; [apply (le_knownAbove s _ LE), H2|]. intros p Q. rewrite (le_id s _ LE) by apply (H3 p Q). apply H3, Q.
  - destruct HR as (A & B & C), K6 as (A' & B' & C'). split; [|split; [exact B|lia]]. intros r c H. destruct (A r c H) as [H'|(H1 & H2 & H3)].
    + destruct (A' r c H'). split; [assumption|lia].
    + split; [exact H1|lia].
  - intros g r H. destruct (HTb g r H) as [H'|H']; [|exact H']. destruct (K7 g r H') as [|(o & H1 & H2)]; [left; assumption|right].
    exists o. split; [apply (le_owner s _ LE R), H1|apply (le_leads s _ LE), H2].
  - intros n g r o H. destruct (HB n g r o H) as [[g0 H']|H']; [|exact H']. destruct (K8 n g0 r o H') as (c' & H1 & H2 & H3). exists c'.
    split; [apply (l_routes _ _ (LE y)), H1|]. split; [exact H2|].
    destruct H3 as [H3|(H3 & H4 & H5)]; [left; exact H3|right]. split; [exact H3|]. split; [apply (le_hasB s _ LE), H4|apply (le_id0 s _ LE), H5].
  - intros n g r o H. destruct (HF n g r o H) as [[g0 H']|H']; [|exact H']. destruct (K9 n g0 r o H') as (c' & H1 & H2 & H3). exists c'.
    split; [apply (l_routes _ _ (LE y)), H1|]. split; [exact H2|].
    destruct H3 as [[H3 H4]|[H3 H4]]; [left|right]; (split; [exact H3|]); [apply (le_inLocal s _ LE), H4|apply (le_hasF s _ LE), H4].
  - intros n g H. destruct (HL n g H) as [H'|H']; [|exact H']. destruct (K10 n g H') as (H1 & [H2|[H2 H3]]); (split; [exact H1|]); [left; exact H2|right].
    split; [apply (le_regF s _ LE R), H2|apply (le_knownAbove s _ LE), H3].
  - intros m H. destruct (HD m H) as [H'|[_ H']]; [|exact H']. destruct (K11 m H') as (n & src & a & H1 & H2 & H3). exists n, src, a.
    split; [exact H1|]. split; [apply (le_hasB s _ LE), H2|exact H3].
Qed.
Ltac unfn := unfold addRoute in *; cbn [set_n_rc set_n_routes set_n_brokers set_n_feds set_n_table set_n_delay set_n_local set_n_id set_n_higher set_n_ub
  n_root n_core n_name n_ub n_id n_higher n_delay n_brokers n_feds n_routes n_rc n_table n_local] in *.
Lemma same_routes s y : inv s ->
  (forall r c, In (r, c) (n_routes (nodes s y)) -> In (r, c) (n_routes (nodes s y)) \/ (par c = Some y /\ r = n_rc (nodes s y) /\ n_rc (nodes s y) = r + 1)) /\
   NoDup (map fst (n_routes (nodes s y))) /\ n_rc (nodes s y) <= n_rc (nodes s y).
Proof. intros I. split; [auto|]. split; [apply (k_routes _ _ (i_nodes _ I y))|lia]. Qed.
Lemma rootOk_other s y st w : inv s -> y <> root -> rootOk (upd s y st w).
Proof. intros I N. unfold rootOk. rewrite upd_other by congruence. apply (i_rootOk _ I). Qed.
Lemma rootOk_same s y st w : inv s -> n_brokers st = n_brokers (nodes s y) -> n_feds st = n_feds (nodes s y) -> rootOk (upd s y st w).
Proof.
  intros I A B. unfold rootOk. destruct (Nat.eq_dec root y) as [E|N]; [|rewrite upd_other by congruence; apply (i_rootOk _ I)].
  subst y. rewrite upd_same, A, B. apply (i_rootOk _ I).
Qed.

Lemma routes_inv s y c : inv s -> par c = Some y -> inv (upd s y (addRoute (nodes s y) c) (wire s)).
Proof.
  intros I P. pose proof (i_nodes _ I y) as K. assert (L : nle (nodes s y) (addRoute (nodes s y) c)).
  { constructor; cbn; auto using incl_refl. apply incl_appl, incl_refl. }
  pose proof (upd_le s y _ (wire s) L) as LE. apply upd_inv; auto.
  - apply (grow_ok s _ y I LE); rewrite ?upd_same; unfn; auto.
    + destruct (k_static _ _ K) as (_ & _ & _ & H). auto.
    + apply K.
    + apply K.
    + split; [|split; [|lia]].
      * intros r c' H. apply in_app_or in H. destruct H as [H|[H|[]]]; [left; exact H|right]. injection H as <- <-. auto.
      * rewrite map_app. apply NoDup_snoc; [apply K|]. intros H. apply in_map_iff in H. destruct H as ((r & c') & E & H). cbn in E. subst r.
        destruct (proj1 (k_routes _ _ K) _ c' H). lia.
    + intros n g r o H. left. exists g. exact H.
    + intros n g r o H. left. exists g. exact H.
    + apply K.
  - apply rootOk_same; [exact I|reflexivity|reflexivity].
  - apply (toks_same s); auto.
    + apply upd_feds. reflexivity.
    + apply upd_routes. exists [(n_rc (nodes s y), c)]. reflexivity.
Qed.
Lemma count_inv s y : inv s -> inv (upd s y (set_n_rc (n_rc (nodes s y) + 1) (nodes s y)) (wire s)).
Proof.
  intros I. pose proof (i_nodes _ I y) as K. assert (L : nle (nodes s y) (set_n_rc (n_rc (nodes s y) + 1) (nodes s y))) by (constructor; cbn; auto using incl_refl).
  pose proof (upd_le s y _ (wire s) L) as LE. apply upd_inv; auto.
  - apply (grow_ok s _ y I LE); rewrite ?upd_same; unfn; auto; try apply K.
    + destruct (k_static _ _ K) as (_ & _ & _ & H). auto.
    + split; [auto|]. split; [apply K|lia].
    + intros n g r o H. left. exists g. exact H.
    + intros n g r o H. left. exists g. exact H.
  - apply rootOk_same; [exact I|reflexivity|reflexivity].
  - apply (toks_same s); auto.
    + apply upd_feds. reflexivity.
    + apply upd_routes. exists []. rewrite app_nil_r. reflexivity.
Qed.

(** who may stand behind a registration received from the child [c] *)
Definition behindB (s : net) (c : nat) (n : string) (o : nat) : Prop :=
  (o = c /\ n = t_name T c) \/ (o <> c /\ hasB s c n o /\ n_id (nodes s c) <> 0).
Lemma behindB_le s s' c n o : le s s' -> behindB s c n o -> behindB s' c n o.
Proof. intros L [H|(A & B & C)]; [left; exact H|right]. split; [exact A|]. split; [apply (le_hasB s s' L), B|apply (le_id0 s s' L), C]. Qed.

Lemma nle_addB st e g r : nle st (set_n_table (emplace g r (n_table st)) (set_n_brokers (n_brokers st ++ [e]) st)).
Proof.
  constructor; unfn; auto using incl_refl.
  - intros n o (g0 & r0 & H). exists g0, r0. apply in_or_app. left. exact H.
  - intros _. split; [apply incl_appl|]; apply incl_refl.
  - intros g0 H. rewrite lookup_emplace. destruct (lookup (n_table st) g0); [discriminate|congruence].
Qed.
Lemma nle_addB' st e d : nle st (set_n_delay d (set_n_brokers (n_brokers st ++ [e]) st)).
Proof.
  constructor; unfn; auto using incl_refl.
  - intros n o (g0 & r0 & H). exists g0, r0. apply in_or_app. left. exact H.
  - intros _. split; [apply incl_appl|]; apply incl_refl.
Qed.
Lemma nodup_addB s y n g r o : inv s -> findB (n_brokers (nodes s y)) n = None -> NoDup (map be_name (n_brokers (nodes s y) ++ [mkB n g r o])).
Proof. intros I F. rewrite map_app. apply NoDup_snoc; [apply (i_nodes _ I)|]. apply findB_none, F. Qed.
Lemma nodup_addF s y n g r o : inv s -> findF (n_feds (nodes s y)) n = None -> NoDup (map fe_name (n_feds (nodes s y) ++ [mkF n g r o])).
Proof. intros I F. rewrite map_app. apply NoDup_snoc; [apply (i_nodes _ I)|]. apply findF_none, F. Qed.
Lemma not_core_of_child y c : par c = Some y -> t_core T y = true -> False.
Proof. intros P H. rewrite (parent_core _ _ P) in H. discriminate. Qed.

Definition acceptRoot (st : node) (n : string) (r : Z) (a : nat) : node :=
  let g := newBrokerId (Z.of_nat (length (n_brokers st))) in
  set_n_table (emplace g r (n_table st)) (set_n_brokers (n_brokers st ++ [mkB n g r a]) st).
Lemma addB_root s c n a r : inv s -> par c = Some root -> In (r, c) (n_routes (nodes s root)) -> below c a -> behindB s c n a ->
  findB (n_brokers (nodes s root)) n = None ->
  inv (upd s root (acceptRoot (nodes s root) n r a)
        (wire s ++ [(root, c, BrokerAck n (n_id (nodes s root)) (newBrokerId (Z.of_nat (length (n_brokers (nodes s root))))) false a)])).
Proof.
  intros I P RC B BB F. set (g := newBrokerId _). set (w := wire s ++ _). pose proof (i_nodes _ I root) as K.
  assert (L : nle (nodes s root) (acceptRoot (nodes s root) n r a)) by apply nle_addB.
  pose proof (upd_le s root _ w L) as LE. set (s' := upd s root (acceptRoot (nodes s root) n r a) w) in *.
  assert (RB : regB s' n g a).
  { exists r. unfold s'. rewrite upd_same. unfold acceptRoot. unfn. apply in_or_app. right. left. reflexivity. }
  apply upd_inv; auto; fold s'.
  - apply (grow_ok s s' root I LE); unfold s'; rewrite ?upd_same; fold s'; unfold acceptRoot; unfn; auto.
    + destruct (k_static _ _ K) as (_ & _ & _ & H). auto.
    + apply nodup_addB; assumption.
    + apply K.
    + apply same_routes, I.
    + intros g0 r0. rewrite lookup_emplace. destruct (lookup (n_table (nodes s root)) g0); [auto|]. fold g. destruct (Z.eqb_spec g g0) as [<-|]; [|discriminate].
      intros H. injection H as <-. right. right. exists a. split; [left; exists n; exact RB|]. exists c. split; [|exact B].
      unfold s'. rewrite upd_same. exact RC.
    + intros n0 g0 r0 o0 H. apply in_app_or in H. destruct H as [H|[H|[]]]; [left; exists g0; exact H|right]. injection H as <- <- <- <-.
      exists c. split; [exact RC|]. split; [exact B|]. apply (behindB_le s s' c n a LE BB).
    + intros n0 g0 r0 o0 H. left. exists g0. exact H.
    + rewrite root_core. discriminate.
  - unfold rootOk, s'. rewrite upd_same. unfold acceptRoot. unfn. split; [|apply (i_rootOk _ I)].
    intros k e H. destruct (Nat.lt_ge_cases k (length (n_brokers (nodes s root)))) as [Q|Q].
    + rewrite nth_error_app1 in H by exact Q. apply (i_rootOk _ I), H.
    + rewrite nth_error_app2 in H by exact Q. destruct (k - length (n_brokers (nodes s root)))%nat eqn:D; [|destruct n0; discriminate].
      injection H as <-. cbn [be_gid]. f_equal. f_equal. lia.
  - intros q Q. apply in_app_or in Q. destruct Q as [Q|[<-|[]]]; [left; exact Q|right]. cbn [okp]. split; [exact P|]. split; [exact B|].
    split; [apply (behindB_le s s' c n a LE BB)|]. split; [exact RB|]. split.
    + intros x X. destruct (above_parent _ _ _ P X) as [->|X']; [|exfalso; apply (above_root _ X')].
      unfold known, s'. rewrite upd_same. unfold acceptRoot. unfn. rewrite lookup_emplace. fold g. rewrite Z.eqb_refl.
      destruct (lookup (n_table (nodes s root)) g); discriminate.
    + unfold s'. rewrite upd_same. split; [reflexivity|]. destruct (k_root _ _ K eq_refl) as (-> & _). discriminate.
  - apply (toks_same s); auto.
    + apply upd_feds. reflexivity.
    + apply upd_routes. exists []. rewrite app_nil_r. reflexivity.
    + intros c0 n0 _. unfold s', w. cbn [upd wire]. rewrite !cnt_app. cbn. lia.
Qed.

Lemma addB_up s y p c n a r src : inv s -> small s -> par y = Some p -> par c = Some y -> In (r, c) (n_routes (nodes s y)) -> below c a -> behindB s c n a ->
  findB (n_brokers (nodes s y)) n = None ->
  let st := set_n_brokers (n_brokers (nodes s y) ++ [mkB n invalidId r a]) (nodes s y) in
  let out := if isValid (n_id st) && negb (n_id st =? parentId) then (st, [(y, p, RegBroker n (n_id st) a 0)])
             else (set_n_delay (n_delay st ++ [RegBroker n src a 0]) st, []) in
  inv (upd s y (fst out) (wire s ++ snd out)).
Proof.
  intros I S PY P RC B BB F st out. pose proof (i_nodes _ I y) as K. pose proof (not_root _ _ PY) as NR.
  assert (D : n_delay (fst out) = n_delay (nodes s y) \/ n_delay (fst out) = n_delay (nodes s y) ++ [RegBroker n src a 0]) by (unfold out; destruct (isValid (n_id st) && negb (n_id st =? parentId)); auto).
  assert (E : fst out = set_n_delay (n_delay (fst out)) st) by (unfold out, st; destruct (nodes s y); cbn; destruct (isValid n_id && negb (n_id =? parentId)); reflexivity).
  assert (A : above y a) by (exists c; split; assumption).
  assert (L : nle (nodes s y) (fst out)) by (rewrite E; apply nle_addB').
  assert (NF : n_feds (fst out) = n_feds (nodes s y)) by (rewrite E; reflexivity).
  assert (NB : n_brokers (fst out) = n_brokers (nodes s y) ++ [mkB n invalidId r a]) by (rewrite E; reflexivity).
  set (w := wire s ++ snd out). pose proof (upd_le s y (fst out) w L) as LE. set (s' := upd s y (fst out) w) in *.
  assert (HB : hasB s' y n a).
  { exists invalidId, r. unfold s'. rewrite upd_same, NB. apply in_or_app. right. left. reflexivity. }
  assert (NA : a <> y).
  { intros ->. pose proof (proj1 (below_depth _ _ B)). pose proof (parent_depth _ _ P). lia. }
  apply upd_inv; auto; fold s'.
  - apply (grow_ok s s' y I LE); unfold s'; rewrite ?upd_same; fold s'; rewrite ?NF, ?NB.
    + rewrite E. unfold st. unfn. destruct (k_static _ _ K) as (_ & _ & _ & H). auto.
    + left. rewrite E. auto.
    + apply nodup_addB; assumption.
    + apply K.
    + rewrite E. apply same_routes, I.
    + rewrite E. auto.
    + intros n0 g0 r0 o0 H. apply in_app_or in H. destruct H as [H|[H|[]]]; [left; exists g0; exact H|right]. injection H as <- <- <- <-.
      exists c. rewrite E. split; [exact RC|]. split; [exact B|]. apply (behindB_le s s' c n a LE BB).
    + intros n0 g0 r0 o0 H. left. exists g0. exact H.
    + rewrite E. auto.
    + intros m H. destruct D as [D|D]; rewrite D in H; [left; exact H|]. apply in_app_or in H. destruct H as [H|[<-|[]]]; [left; exact H|right].
      split; [exact NR|]. exists n, src, a. auto.
    + intros C. exfalso. apply (not_core_of_child y c P C).
  - apply rootOk_other; assumption.
  - intros q Q. apply in_app_or in Q. destruct Q as [Q|Q]; [left; exact Q|right]. unfold out in Q.
    destruct (isValid (n_id st) && negb (n_id st =? parentId)) eqn:V; [|contradiction]. destruct Q as [<-|[]]. apply andb_true_iff in V. destruct V as [_ V].
    apply negb_true_iff, Z.eqb_neq in V. cbn [okp]. split; [reflexivity|]. split; [exact PY|]. right. unfold s'. rewrite upd_same. fold s'. rewrite E. unfold st in *. unfn.
    split; [reflexivity|]. split; [exact V|]. split; [exact NA|]. split; [|exact HB]. apply (below_trans y c); [|exact B]. apply (below_up _ c y P). constructor.
  - apply (toks_same s); auto.
    + apply upd_feds, NF.
    + apply upd_routes. rewrite E. exists []. rewrite app_nil_r. reflexivity.
    + intros c0 n0 _. unfold s', w. cbn [upd wire]. rewrite !cnt_app. unfold out. destruct (isValid (n_id st) && negb (n_id st =? parentId)); cbn; lia.
Qed.

Lemma refuseB_inv s y c n i a : inv s -> par c = Some y -> below c a -> behindB s c n a -> inv (mkNet (nodes s) (wire s ++ [(y, c, BrokerAck n i parentId true a)])).
Proof.
  intros I P B BB. apply wire_inv; [exact I| |].
  - intros q Q. apply in_app_or in Q. destruct Q as [Q|[<-|[]]]; [left; exact Q|right]. cbn [okp]. split; [exact P|]. split; [exact B|]. split; [exact BB|reflexivity].
  - intros c0 n0 _. rewrite !cnt_app. cbn. lia.
Qed.
Lemma resolve_route s y r c : inv s -> In (r, c) (n_routes (nodes s y)) -> forall st, n_routes st = n_routes (nodes s y) -> resolve T y st (ToRoute r) = Some c.
Proof.
  intros I H st E. unfold resolve. pose proof (routes_pos s y r c (i_nodes _ I y) H) as N. apply Z.eqb_neq in N. rewrite N, E. apply (routes_lookup s y r c (i_nodes _ I y) H).
Qed.
Lemma static_root s y : inv s -> n_root (nodes s y) = Nat.eqb y root. Proof. intros I. apply (i_nodes _ I y). Qed.
Lemma id_valid s y : inv s -> small s -> n_id (nodes s y) <> 0 -> isValid (n_id (nodes s y)) = true.
Proof.
  intros I S N. destruct (Nat.eq_dec y root) as [->|R].
  - destruct (k_root _ _ (i_nodes _ I root) eq_refl) as (-> & _). reflexivity.
  - apply (owner_valid s _ y I S), id_owner; assumption.
Qed.
(** what follows once the route to the child is known *)
Lemma acceptB_inv s y c n a r src : inv s -> small s -> par c = Some y -> In (r, c) (n_routes (nodes s y)) -> below c a -> behindB s c n a ->
  findB (n_brokers (nodes s y)) n = None ->
  let x := nodes s y in
  let res := if n_root x then
            let g := newBrokerId (Z.of_nat (length (n_brokers x))) in
            let x := set_n_brokers (n_brokers x ++ [mkB n g r a]) x in
            let x := set_n_table (emplace g r (n_table x)) x in
            (x, [(ToRoute r, BrokerAck n (n_id x) g false a)])
          else
            let x := set_n_brokers (n_brokers x ++ [mkB n invalidId r a]) x in
            if isValid (n_id x) && negb (n_id x =? parentId)
            then (x, [(ToRoute parentRoute, RegBroker n (n_id x) a 0)])
            else (set_n_delay (n_delay x ++ [RegBroker n src a 0]) x, []) in
  inv (upd s y (fst res) (wire s ++ packets T y (fst res) (snd res))).
Proof.
  intros I S P RC B BB F x res. unfold res, x. rewrite (static_root s y I). destruct (Nat.eqb_spec y root) as [->|NR].
  - cbv zeta. cbn [fst snd]. unfold packets. cbn [flat_map fst snd app]. rewrite (resolve_route s root r c I RC) by reflexivity.
    apply (addB_root s c n a r I P RC B BB F).
  - destruct (has_parent y NR) as [p PY]. pose proof (addB_up s y p c n a r src I S PY P RC B BB F) as H. cbv zeta in H |- *. unfn.
    destruct (isValid (n_id (nodes s y)) && negb (n_id (nodes s y) =? parentId)); cbn [fst snd] in *; [|exact H].
    unfold packets. cbn [flat_map fst snd app]. unfold resolve. change (parentRoute =? parentRoute) with true. cbn iota. rewrite PY. exact H.
Qed.
Lemma regBroker_inv s y0 y n src a ok : inv s -> small s -> okp s (y0, y, RegBroker n src a 0) ->
  inv (upd s y (fst (brokerRegistration (nodes s y) n src a 0 ok)) (wire s ++ packets T y (fst (brokerRegistration (nodes s y) n src a 0 ok)) (snd (brokerRegistration (nodes s y) n src a 0 ok)))).
Proof.
  intros I S (_ & P & H). unfold brokerRegistration. change (0 <? 0) with false. cbn iota.
  assert (BB : behindB s y0 n a) by (destruct H as [(_ & -> & ->)|(E & N & NA & _ & HB)]; [left; auto|right; rewrite <- E; auto]).
  assert (B : below y0 a) by (destruct H as [(_ & -> & _)|(_ & _ & _ & B & _)]; [constructor|exact B]).
  assert (D : (src = invalidId /\ a = y0 /\ negb (isValid src) || (src =? parentId) = true) \/
              (src = n_id (nodes s y0) /\ src <> 0 /\ negb (isValid src) || (src =? parentId) = false)).
  { destruct H as [(-> & -> & _)|(E & N & _)]; [left; auto|right]. split; [exact E|]. split; [exact N|]. subst src. rewrite (id_valid s y0 I S N). apply Z.eqb_neq in N. unfold parentId. rewrite N. reflexivity. }
  assert (REF : inv (upd s y (fst (brokerErrorAck (nodes s y) n src a)) (wire s ++ packets T y (fst (brokerErrorAck (nodes s y) n src a)) (snd (brokerErrorAck (nodes s y) n src a))))).
  { unfold brokerErrorAck. destruct D as [(_ & -> & ->)|(E & N & ->)]; cbn [fst snd]; unfold packets; cbn [flat_map fst snd app].
    - unfold resolve. pose proof (count_inv s y I) as I1. pose proof (upd_le s y (set_n_rc (n_rc (nodes s y) + 1) (nodes s y)) (wire s)) as LE.
      apply (refuseB_inv _ y y0 n (n_id (nodes s y)) y0 I1 P (below_refl y0)). apply (behindB_le s); [|exact BB]. apply LE. constructor; unfn; auto using incl_refl.
    - destruct (route_to_child s y y0 I S P ltac:(congruence)) as (r & R & RC). rewrite E, R. rewrite (resolve_route s y r y0 I RC) by reflexivity.
      apply (inv_ext (mkNet (nodes s) (wire s ++ [(y, y0, BrokerAck n (n_id (nodes s y)) parentId true a)]))); [|reflexivity|apply refuseB_inv; assumption].
      intros x. destruct (Nat.eq_dec x y) as [->|X]; [rewrite upd_same; reflexivity|rewrite upd_other by exact X; reflexivity]. }
  destruct ok; cbn [negb]; [|exact REF]. destruct (findB (n_brokers (nodes s y)) n) as [e|] eqn:F; [exact REF|]. clear REF.
  destruct D as [(-> & -> & ->)|(E & N & ->)]; cbv beta iota.
  - pose proof (routes_inv s y y0 I P) as I1. set (s1 := upd s y (addRoute (nodes s y) y0) (wire s)) in *.
    assert (N1 : nodes s1 y = addRoute (nodes s y) y0) by apply upd_same.
    assert (LE : le s s1).
    { apply upd_le. constructor; unfn; auto using incl_refl. apply incl_appl, incl_refl. }
    assert (S1 : small s1).
    { unfold small. destruct (Nat.eq_dec root y) as [Q|Q]; [unfold s1; rewrite Q, upd_same; unfn; rewrite <- Q; exact S|unfold s1; rewrite upd_other by exact Q; exact S]. }
    assert (RC : In (n_rc (nodes s y), y0) (n_routes (nodes s1 y))) by (rewrite N1; unfn; apply in_or_app; right; left; reflexivity).
    assert (F1 : findB (n_brokers (nodes s1 y)) n = None) by (rewrite N1; exact F).
    pose proof (acceptB_inv s1 y y0 n y0 (n_rc (nodes s y)) invalidId I1 S1 P RC B (behindB_le s s1 y0 n y0 LE BB) F1) as H1. cbv zeta in H1 |- *. rewrite N1 in H1. unfold addRoute in H1.
    match type of H1 with inv (upd s1 y (fst ?res) _) => set (R := res) in * end.
    match goal with |- inv (upd s y (fst ?res) _) => change res with R end.
    apply (inv_ext (upd s1 y (fst R) (wire s1 ++ packets T y (fst R) (snd R)))); [|reflexivity|exact H1].
    intros x. destruct (Nat.eq_dec x y) as [->|X]; [rewrite !upd_same; reflexivity|rewrite !upd_other by exact X; unfold s1; rewrite upd_other by exact X; reflexivity].
  - destruct (route_to_child s y y0 I S P ltac:(congruence)) as (r & R & RC). rewrite E, R. rewrite <- E.
    apply (acceptB_inv s y y0 n a r src I S P RC B BB F).
Qed.

(** ** acknowledgements of brokers and cores *)
Definition deliver (s : net) (y : nat) (m : rmsg) (ok : bool) : net :=
  let res := receive (nodes s y) m ok in upd s y (fst res) (wire s ++ packets T y (fst res) (snd res)).

Lemma packets_nil y st : packets T y st [] = []. Proof. reflexivity. Qed.
Lemma same_node s y w : inv (mkNet (nodes s) w) -> inv (upd s y (nodes s y) w).
Proof.
  intros I. apply (inv_ext (mkNet (nodes s) w)); [|reflexivity|exact I].
  intros x. destruct (Nat.eq_dec x y) as [->|X]; [rewrite upd_same; reflexivity|rewrite upd_other by exact X; reflexivity].
Qed.
Lemma nothing_inv s y : inv s -> inv (upd s y (nodes s y) (wire s ++ packets T y (nodes s y) [])).
Proof. intros I. apply same_node. rewrite packets_nil, app_nil_r. destruct s. exact I. Qed.

(** a node hears of its own registration *)
Lemma ownAck_inv s y z src dst : inv s -> small s -> okp s (y, z, BrokerAck (t_name T z) src dst false z) ->
  let st := set_n_delay [] (set_n_higher src (set_n_id dst (nodes s z))) in
  inv (upd s z st (wire s ++ packets T z st (map (fun m => (ToRoute parentRoute, withSource dst m)) (n_delay (nodes s z))))).
Proof.
  intros I S (P & _ & _ & RB & KA & SRC & SN) st. pose proof (i_nodes _ I z) as K. pose proof (not_root _ _ P) as NR.
  assert (SAME : n_id (nodes s z) <> 0 -> dst = n_id (nodes s z)).
  { intros N. destruct (k_id _ _ K NR) as [[H _]|(H & _)]; [contradiction|]. apply (regB_name s _ _ _ _ _ I RB H). }
  assert (L : nle (nodes s z) st) by (constructor; unfold st; unfn; auto using incl_refl).
  match goal with |- inv (upd s z st ?w') => set (w := w') end. pose proof (upd_le s z st w L) as LE. set (s' := upd s z st w) in *.
  pose proof (root_flag s I) as R.
  assert (NP : y <> z) by (intros ->; pose proof (parent_depth _ _ P); lia).
  assert (IDY : n_id (nodes s' y) = n_id (nodes s y)) by (unfold s'; rewrite upd_other by exact NP; reflexivity).
  destruct (owner_valid s dst z I S (or_introl (ex_intro (fun n => regB s n dst z) (t_name T z) RB))) as (_ & D0 & _).
  apply upd_inv; auto; fold s'.
  - apply (grow_ok s s' z I LE); unfold s'; rewrite ?upd_same; fold s'; unfold st; unfn.
    + destruct (k_static _ _ K) as (_ & _ & _ & H). auto.
    + right. split; [exact NR|]. split; [apply (le_regB s s' LE R), RB|]. split; [apply (le_knownAbove s s' LE), KA|].
      intros p Q. rewrite P in Q. injection Q as <-. rewrite IDY. split; congruence.
    + apply K.
    + apply K.
    + apply same_routes, I.
    + auto.
    + intros n g r o H. left. exists g. exact H.
    + intros n g r o H. left. exists g. exact H.
    + auto.
    + intros m [].
    + intros C. destruct (k_core _ _ K C) as (A & B & _). auto.
  - apply rootOk_other; assumption.
  - intros q Q. apply in_app_or in Q. destruct Q as [Q|Q]; [left; exact Q|right]. unfold packets in Q. apply in_flat_map in Q. destruct Q as (tm & Q1 & Q2).
    apply in_map_iff in Q1. destruct Q1 as (m & <- & M). cbn [fst snd] in Q2. unfold resolve in Q2. change (parentRoute =? parentRoute) with true in Q2. cbn iota in Q2.
    rewrite P in Q2. destruct Q2 as [<-|[]]. destruct (k_delay _ _ K m M) as (n & sr & a & -> & HB & (c & Pc & Bc)). cbn [withSource okp].
    split; [reflexivity|]. split; [exact P|]. right. unfold s'. rewrite upd_same. unfold st. unfn. split; [reflexivity|]. split; [lia|].
    split; [intros ->; pose proof (proj1 (below_depth _ _ Bc)); pose proof (parent_depth _ _ Pc); lia|].
    split; [apply (below_trans z c); [apply (below_up _ c z Pc); constructor|exact Bc]|]. apply (le_hasB s s' LE), HB.
  - apply (toks_same s); auto.
    + apply upd_feds. reflexivity.
    + apply upd_routes. exists []. rewrite app_nil_r. reflexivity.
    + intros c n _. unfold s', w. cbn [upd wire]. rewrite !cnt_app.
      assert (Z0 : forall f l, (forall n a sr, f (z, y, RegBroker n sr a 0) = false) -> (forall m, In m l -> exists n sr a, m = RegBroker n sr a 0) ->
        cnt f (packets T z st (map (fun m => (ToRoute parentRoute, withSource dst m)) l)) = 0%nat).
      { clear - P. intros f l F. induction l as [|m l IH]; intros H; [reflexivity|]. unfold packets. cbn [map flat_map fst snd]. unfold resolve at 1.
        change (parentRoute =? parentRoute) with true. cbn iota. rewrite P. rewrite cnt_app. fold (packets T z st (map (fun m => (ToRoute parentRoute, withSource dst m)) l)).
        rewrite IH by (intros m' H'; apply H; right; exact H'). destruct (H m (or_introl eq_refl)) as (n & sr & a & ->). unfold cnt. cbn [withSource filter]. rewrite F. reflexivity. }
      assert (DL : forall m, In m (n_delay (nodes s z)) -> exists n sr a, m = RegBroker n sr a 0).
      { intros m M. destruct (k_delay _ _ K m M) as (n' & sr & a & H & _). eauto. }
      rewrite !Z0; [lia|..]; try exact DL; reflexivity.
Qed.

Lemma hasB_find s z n o : inv s -> hasB s z n o -> exists g r, findB (n_brokers (nodes s z)) n = Some (mkB n g r o) /\ In (mkB n g r o) (n_brokers (nodes s z)).
Proof. intros I (g & r & H). exists g, r. split; [|exact H]. apply (in_findB _ (mkB n g r o)); [apply (i_nodes _ I)|exact H]. Qed.
Lemma hasF_find s z n o : inv s -> hasF s z n o -> exists g r, findF (n_feds (nodes s z)) n = Some (mkF n g r o) /\ In (mkF n g r o) (n_feds (nodes s z)).
Proof. intros I (g & r & H). exists g, r. split; [|exact H]. apply (in_findF _ (mkF n g r o)); [apply (i_nodes _ I)|exact H]. Qed.
Lemma in_updB l n g0 n' g r o : In (mkB n' g r o) (updB l n (fun e => mkB (be_name e) g0 (be_route e) (be_own e))) -> exists g1, In (mkB n' g1 r o) l.
Proof.
  unfold updB. intros H. apply in_map_iff in H. destruct H as ([a b c d] & E & H). cbn [be_name be_route be_own] in E.
  destruct (String.eqb a n); injection E as <- <- <- <-; eauto.
Qed.
Lemma in_updF l n g0 n' g r o : In (mkF n' g r o) (updF l n (fun e => mkF (fe_name e) g0 (fe_route e) (fe_own e))) -> exists g1, In (mkF n' g1 r o) l.
Proof.
  unfold updF. intros H. apply in_map_iff in H. destruct H as ([a b c d] & E & H). cbn [fe_name fe_route fe_own] in E.
  destruct (String.eqb a n); injection E as <- <- <- <-; eauto.
Qed.
Lemma updB_has l n g0 n' o : (exists g r, In (mkB n' g r o) l) -> exists g r, In (mkB n' g r o) (updB l n (fun e => mkB (be_name e) g0 (be_route e) (be_own e))).
Proof.
  intros (g & r & H). exists (if String.eqb n' n then g0 else g), r. unfold updB. apply in_map_iff. exists (mkB n' g r o). split; [|exact H].
  cbn [be_name be_route be_own]. destruct (String.eqb n' n); reflexivity.
Qed.
Lemma updF_has l n g0 n' o : (exists g r, In (mkF n' g r o) l) -> exists g r, In (mkF n' g r o) (updF l n (fun e => mkF (fe_name e) g0 (fe_route e) (fe_own e))).
Proof.
  intros (g & r & H). exists (if String.eqb n' n then g0 else g), r. unfold updF. apply in_map_iff. exists (mkF n' g r o). split; [|exact H].
  cbn [fe_name fe_route fe_own]. destruct (String.eqb n' n); reflexivity.
Qed.

(** an answer on its way down *)
Lemma passAck_inv s y z n src dst err o g r : inv s -> small s -> okp s (y, z, BrokerAck n src dst err o) -> o <> z -> hasB s z n o ->
  In (mkB n g r o) (n_brokers (nodes s z)) -> n_id (nodes s z) <> 0 ->
  let st := set_n_table (emplace dst r (n_table (nodes s z))) (set_n_brokers (updB (n_brokers (nodes s z)) n (fun e => mkB (be_name e) dst (be_route e) (be_own e))) (nodes s z)) in
  inv (upd s z st (wire s ++ packets T z st [(ToRoute r, BrokerAck n (n_id (nodes s z)) dst err o)])).
Proof.
  intros I S (P & B & _ & D) NZ HB IN IDZ st. pose proof (i_nodes _ I z) as K. pose proof (not_root _ _ P) as NR. pose proof (root_flag s I) as R.
  destruct (k_brokers _ _ K n g r o IN) as (c & RC & BC & BH). pose proof (proj1 (proj1 (k_routes _ _ K) r c RC)) as PC.
  assert (L : nle (nodes s z) st).
  { constructor; unfold st; unfn; auto using incl_refl.
    - intros n0 o0 H. apply updB_has, H.
    - intros Q. destruct (k_static _ _ K) as (H & _). rewrite Q in H. symmetry in H. apply Nat.eqb_eq in H. contradiction.
    - intros g0 H. rewrite lookup_emplace. destruct (lookup (n_table (nodes s z)) g0); [discriminate|congruence]. }
  unfold packets. cbn [flat_map fst snd app]. rewrite (resolve_route s z r c I RC) by reflexivity. cbn [app].
  match goal with |- inv (upd s z st ?w') => set (w := w') end. pose proof (upd_le s z st w L) as LE. set (s' := upd s z st w) in *.
  assert (RC' : In (r, c) (n_routes (nodes s' z))) by (apply (l_routes _ _ (LE z)), RC).
  apply upd_inv; auto; fold s'.
  - apply (grow_ok s s' z I LE); unfold s'; rewrite ?upd_same; fold s'; unfold st; unfn.
    + destruct (k_static _ _ K) as (_ & _ & _ & H). auto.
    + auto.
    + rewrite names_updB. apply K.
    + apply K.
    + apply same_routes, I.
    + intros g0 r0. rewrite lookup_emplace. destruct (lookup (n_table (nodes s z)) g0); [auto|]. destruct (Z.eqb_spec dst g0) as [<-|]; [|discriminate].
      intros H. injection H as <-. right. destruct err; [left; exact D|right]. exists o. split; [left; exists n; apply (le_regB s s' LE R), D|exists c; auto].
    + intros n0 g0 r0 o0 H. left. apply in_updB in H. exact H.
    + intros n0 g0 r0 o0 H. left. exists g0. exact H.
    + auto.
    + auto.
    + intros C. exfalso. apply (not_core_of_child z c PC C).
  - apply rootOk_other; assumption.
  - intros q Q. apply in_app_or in Q. destruct Q as [Q|[<-|[]]]; [left; exact Q|right]. cbn [okp]. split; [exact PC|]. split; [exact BC|].
    split; [apply (behindB_le s s' c n o LE), BH|]. destruct err; [exact D|]. destruct D as (RB & KA & _).
    split; [apply (le_regB s s' LE R), RB|]. split.
    + intros x X. destruct (above_parent _ _ _ PC X) as [->|X']; [|apply (le_known s s' LE), KA, X'].
      unfold known, s'. rewrite upd_same. unfold st. unfn. rewrite lookup_emplace, Z.eqb_refl. destruct (lookup (n_table (nodes s z)) dst); discriminate.
    + unfold s'. rewrite upd_same. unfold st. unfn. auto.
  - apply (toks_same s); auto.
    + apply upd_feds. reflexivity.
    + apply upd_routes. exists []. rewrite app_nil_r. reflexivity.
    + intros c0 n0 _. unfold s', w. cbn [upd wire]. rewrite !cnt_app. cbn. lia.
Qed.

Lemma static_core s y : inv s -> n_core (nodes s y) = t_core T y. Proof. intros I. apply (i_nodes _ I y). Qed.
Lemma static_name s y : inv s -> n_name (nodes s y) = t_name T y. Proof. intros I. apply (i_nodes _ I y). Qed.
Lemma own_ack s y z n src dst o : inv s -> okp s (y, z, BrokerAck n src dst false o) -> n = t_name T z -> o = z.
Proof.
  intros I (P & B & [[E _]|(NZ & HB & ID)] & RB & _) ->; [exact E|]. pose proof (not_root _ _ P) as NR.
  destruct (k_id _ _ (i_nodes _ I z) NR) as [[H _]|(H & _)]; [contradiction|]. apply (regB_name s _ _ _ _ _ I RB H).
Qed.
Lemma ackBroker_inv s y z n src dst err o ok : inv s -> small s -> okp s (y, z, BrokerAck n src dst err o) -> inv (deliver s z (BrokerAck n src dst err o) ok).
Proof.
  intros I S Q. unfold deliver, receive. rewrite (static_core s z I). destruct (t_core T z) eqn:C.
  - unfold coreBrokerAck. rewrite (static_name s z I). destruct (String.eqb_spec n (t_name T z)) as [E|E]; [|apply nothing_inv, I]. destruct err; [apply nothing_inv, I|]. cbn [negb andb].
    assert (o = z) by (apply (own_ack s y z n src dst o I Q E)). subst o n. pose proof (ownAck_inv s y z src dst I S Q) as H. cbv zeta in H.
    destruct (k_core _ _ (i_nodes _ I z) C) as (_ & _ & D). rewrite D in H. cbn [map] in H. cbn [fst snd].
    replace (set_n_higher src (set_n_id dst (nodes s z))) with (set_n_delay [] (set_n_higher src (set_n_id dst (nodes s z)))); [exact H|]. rewrite <- D. destruct (nodes s z). reflexivity.
  - unfold brokerBrokerAck. rewrite (static_name s z I). destruct (String.eqb_spec n (t_name T z)) as [E|E].
    + destruct err; [apply nothing_inv, I|]. assert (o = z) by (apply (own_ack s y z n src dst o I Q E)). subst o n. apply (ownAck_inv s y z src dst I S Q).
    + pose proof Q as (P & B & [[_ E']|(NZ & HB & ID)] & D); [contradiction|]. destruct (hasB_find s z n o I HB) as (g & r & F & IN). rewrite F. cbn [be_gid be_route].
      destruct (g =? dst); [apply nothing_inv, I|]. apply (passAck_inv s y z n src dst err o g r I S Q NZ HB IN ID).
Qed.

(** ** federates *)
Definition behindF (s : net) (c : nat) (n : string) (o : nat) : Prop := (o = c /\ inLocal s c n) \/ (o <> c /\ hasF s c n o).
Lemma behindF_le s s' c n o : le s s' -> behindF s c n o -> behindF s' c n o.
Proof. intros L [[H H']|[H H']]; [left|right]; (split; [exact H|]); [apply (le_inLocal s s' L), H'|apply (le_hasF s s' L), H']. Qed.

(** counting after a change of one node's federates *)
Lemma toks_upd s y st w : inv s ->
  n_routes st = n_routes (nodes s y) ->
  (forall p c n, par c = Some p -> t_core T c = false ->
     (cnt (isReg c n) w + pend (upd s y st w) p c n + cnt (isAck c n) w + settled (upd s y st w) c n <= here (upd s y st w) c n)%nat) ->
  toksOk (upd s y st w).
Proof. intros I _ H p c n P C. apply (H p c n P C). Qed.
Lemma pend_other s y st w p c n : p <> y -> pend (upd s y st w) p c n = pend s p c n.
Proof. intros N. unfold pend. rewrite upd_other by exact N. reflexivity. Qed.
Lemma settled_other s y st w c n : c <> y -> settled (upd s y st w) c n = settled s c n.
Proof. intros N. unfold settled. rewrite upd_other by exact N. reflexivity. Qed.
Lemma here_other s y st w c n : c <> y -> here (upd s y st w) c n = here s c n.
Proof. intros N. unfold here. rewrite upd_other by exact N. reflexivity. Qed.
Lemma cnt_one f (q : packet) l : cnt f (l ++ [q]) = (cnt f l + (if f q then 1 else 0))%nat.
Proof. rewrite cnt_app. unfold cnt at 2. cbn [filter]. destruct (f q); reflexivity. Qed.
Lemma not_self c p : par c = Some p -> c <> p.
Proof. intros P ->. pose proof (parent_depth _ _ P). lia. Qed.

Lemma refuseF_inv s y c n i o : inv s -> par c = Some y -> below c o -> behindF s c n o ->
  (t_core T c = false -> (tok s y c n + 1 <= here s c n)%nat) ->
  inv (mkNet (nodes s) (wire s ++ [(y, c, FedAck n i parentId true o)])).
Proof.
  intros I P B BF TK. pose proof (root_flag s I) as R. set (s' := mkNet (nodes s) _). assert (L : le s s') by (intros x; apply nle_refl). constructor.
  - intros x. apply (le_nodeOk s s' L R x eq_refl), (i_nodes _ I).
  - apply (i_rootOk _ I).
  - intros q Q. apply in_app_or in Q. destruct Q as [Q|[<-|[]]]; [apply (le_okp s s' L R), (i_wire _ I), Q|]. cbn [okp].
    split; [exact P|]. split; [exact B|]. split; [apply (behindF_le s s' c n o L BF)|reflexivity].
  - intros p' c' n' P' C'. pose proof (i_toks _ I p' c' n' P' C') as H. unfold tok in *. unfold s'. cbn [wire]. rewrite !cnt_one. cbn [isReg isAck].
    change (pend (mkNet (nodes s) _) p' c' n') with (pend s p' c' n'). change (settled (mkNet (nodes s) _) c' n') with (settled s c' n').
    change (here (mkNet (nodes s) _) c' n') with (here s c' n').
    destruct (Nat.eqb_spec c c') as [<-|]; cbn [andb]; [|lia]. destruct (String.eqb_spec n n') as [<-|]; [|lia]. rewrite P in P'. injection P' as <-. specialize (TK C'). lia.
Qed.
Lemma newFed_group k c : exists c', 0 <= c' <= 16 /\ newFederateId k c = newFederateId k c'.
Proof.
  unfold newFederateId. destruct (Z.ltb_spec 0 c) as [A|A], (Z.leb_spec c 16) as [B|B]; cbn [andb].
  - exists c. split; [lia|]. destruct (Z.ltb_spec 0 c), (Z.leb_spec c 16); cbn [andb]; try lia; reflexivity.
  - exists 0. split; [lia|reflexivity].
  - exists 0. split; [lia|reflexivity].
  - exists 0. split; [lia|reflexivity].
Qed.
Lemma newFed_valid k c : 0 <= k < limit -> newFederateId k c <> invalidId.
Proof.
  intros H. destruct (newFed_group k c) as (c' & C & ->). pose proof (C26_ids_are_classified (Federate k c') (legal_fed _ _ H C)) as (_ & _ & V & _).
  intros E. change (idOf (Federate k c')) with (newFederateId k c') in V. rewrite E in V. discriminate.
Qed.

Definition acceptRootF (st : node) (n : string) (r c : Z) (o : nat) : node :=
  let g := newFederateId (Z.of_nat (length (n_feds st))) c in
  set_n_table (emplace g r (n_table st)) (set_n_feds (n_feds st ++ [mkF n g r o]) st).
Lemma addF_root s c n ct o r : inv s -> par c = Some root -> In (r, c) (n_routes (nodes s root)) -> below c o -> behindF s c n o ->
  findF (n_feds (nodes s root)) n = None -> Z.of_nat (length (n_feds (nodes s root))) < limit ->
  (t_core T c = false -> (tok s root c n + 1 <= here s c n)%nat) ->
  inv (upd s root (acceptRootF (nodes s root) n r ct o)
        (wire s ++ [(root, c, FedAck n (n_id (nodes s root)) (newFederateId (Z.of_nat (length (n_feds (nodes s root)))) ct) false o)])).
Proof.
  intros I P RC B BB F SM TK. set (g := newFederateId _ ct). set (w := wire s ++ _). pose proof (i_nodes _ I root) as K.
  assert (GV : g <> invalidId) by (apply newFed_valid; lia).
  assert (L : nle (nodes s root) (acceptRootF (nodes s root) n r ct o)).
  { constructor; unfold acceptRootF; unfn; auto using incl_refl.
    - intros n0 o0 (g0 & r0 & H). exists g0, r0. apply in_or_app. left. exact H.
    - intros _. split; [|apply incl_appl]; apply incl_refl.
    - intros g0 H. rewrite lookup_emplace. destruct (lookup (n_table (nodes s root)) g0); [discriminate|congruence]. }
  pose proof (upd_le s root _ w L) as LE. set (s' := upd s root (acceptRootF (nodes s root) n r ct o) w) in *.
  assert (RB : regF s' n g o).
  { exists r. unfold s'. rewrite upd_same. unfold acceptRootF. unfn. apply in_or_app. right. left. reflexivity. }
  apply upd_inv; auto; fold s'.
  - apply (grow_ok s s' root I LE); unfold s'; rewrite ?upd_same; fold s'; unfold acceptRootF; unfn; auto.
    + destruct (k_static _ _ K) as (_ & _ & _ & H). auto.
    + apply K.
    + apply nodup_addF; assumption.
    + apply same_routes, I.
    + intros g0 r0. rewrite lookup_emplace. destruct (lookup (n_table (nodes s root)) g0); [auto|]. fold g. destruct (Z.eqb_spec g g0) as [<-|]; [|discriminate].
      intros H. injection H as <-. right. right. exists o. split; [right; exists n; exact RB|]. exists c. split; [|exact B].
      unfold s'. rewrite upd_same. exact RC.
    + intros n0 g0 r0 o0 H. left. exists g0. exact H.
    + intros n0 g0 r0 o0 H. apply in_app_or in H. destruct H as [H|[H|[]]]; [left; exists g0; exact H|right]. injection H as <- <- <- <-.
      exists c. split; [exact RC|]. split; [exact B|]. apply (behindF_le s s' c n o LE BB).
    + rewrite root_core. discriminate.
  - unfold rootOk, s'. rewrite upd_same. unfold acceptRootF. unfn. split; [apply (i_rootOk _ I)|].
    intros k e H. destruct (Nat.lt_ge_cases k (length (n_feds (nodes s root)))) as [Q|Q].
    + rewrite nth_error_app1 in H by exact Q. apply (i_rootOk _ I), H.
    + rewrite nth_error_app2 in H by exact Q. destruct (k - length (n_feds (nodes s root)))%nat eqn:D; [|destruct n0; discriminate].
      injection H as <-. cbn [fe_gid]. replace k with (length (n_feds (nodes s root))) by lia. apply newFed_group.
  - intros q Q. apply in_app_or in Q. destruct Q as [Q|[<-|[]]]; [left; exact Q|right]. cbn [okp]. split; [exact P|]. split; [exact B|].
    split; [apply (behindF_le s s' c n o LE BB)|]. split; [exact RB|].
    intros x X. destruct (above_parent _ _ _ P X) as [->|X']; [|exfalso; apply (above_root _ X')].
    unfold known, s'. rewrite upd_same. unfold acceptRootF. unfn. rewrite lookup_emplace. fold g. rewrite Z.eqb_refl.
    destruct (lookup (n_table (nodes s root)) g); discriminate.
  - intros p' c' n' P' C'. pose proof (i_toks _ I p' c' n' P' C') as H. pose proof (not_root _ _ P') as NR. unfold tok in *.
    change (wire s') with w. unfold w. rewrite !cnt_one. unfold s'. rewrite settled_other, here_other by exact NR. cbn [isReg isAck].
    assert (PE : (pend (upd s root (acceptRootF (nodes s root) n r ct o) w) p' c' n' <= pend s p' c' n')%nat).
    { destruct (Nat.eq_dec p' root) as [->|N]; [|rewrite pend_other by exact N; lia]. unfold pend. rewrite upd_same. unfold acceptRootF. unfn. rewrite findF_app.
      destruct (findF (n_feds (nodes s root)) n'); [lia|]. cbn [fe_name]. destruct (String.eqb n n'); [|lia]. cbn [fe_gid]. fold g. apply Z.eqb_neq in GV. rewrite GV. cbn. lia. }
    destruct (Nat.eqb_spec c c') as [<-|]; cbn [andb]; [|lia]. destruct (String.eqb_spec n n') as [<-|]; [|lia].
    rewrite P in P'. injection P' as <-. specialize (TK C'). lia.
Qed.

Lemma addF_up s y p c n ct o r : inv s -> par y = Some p -> par c = Some y -> In (r, c) (n_routes (nodes s y)) -> below c o -> behindF s c n o ->
  findF (n_feds (nodes s y)) n = None -> n_id (nodes s y) <> 0 ->
  (t_core T c = false -> (tok s y c n + 1 <= here s c n)%nat) ->
  inv (upd s y (set_n_feds (n_feds (nodes s y) ++ [mkF n invalidId r o]) (nodes s y)) (wire s ++ [(y, p, RegFed n (n_id (nodes s y)) ct o)])).
Proof.
  intros I PY P RC B BB F IDN TK. pose proof (i_nodes _ I y) as K. pose proof (not_root _ _ PY) as NR. set (st := set_n_feds _ _). set (w := wire s ++ _).
  assert (L : nle (nodes s y) st).
  { constructor; unfold st; unfn; auto using incl_refl.
    - intros n0 o0 (g0 & r0 & H). exists g0, r0. apply in_or_app. left. exact H.
    - intros _. split; [|apply incl_appl]; apply incl_refl. }
  pose proof (upd_le s y st w L) as LE. set (s' := upd s y st w) in *.
  assert (HF : hasF s' y n o).
  { exists invalidId, r. unfold s'. rewrite upd_same. unfold st. unfn. apply in_or_app. right. left. reflexivity. }
  assert (NO : o <> y).
  { intros ->. pose proof (proj1 (below_depth _ _ B)). pose proof (parent_depth _ _ P). lia. }
  apply upd_inv; auto; fold s'.
  - apply (grow_ok s s' y I LE); unfold s'; rewrite ?upd_same; fold s'; unfold st; unfn; auto.
    + destruct (k_static _ _ K) as (_ & _ & _ & H). auto.
    + apply K.
    + apply nodup_addF; assumption.
    + apply same_routes, I.
    + intros n0 g0 r0 o0 H. left. exists g0. exact H.
    + intros n0 g0 r0 o0 H. apply in_app_or in H. destruct H as [H|[H|[]]]; [left; exists g0; exact H|right]. injection H as <- <- <- <-.
      exists c. split; [exact RC|]. split; [exact B|]. apply (behindF_le s s' c n o LE BB).
    + intros C. exfalso. apply (not_core_of_child y c P C).
  - apply rootOk_other; assumption.
  - intros q Q. apply in_app_or in Q. destruct Q as [Q|[<-|[]]]; [left; exact Q|right]. cbn [okp]. split; [exact PY|]. unfold s'. rewrite upd_same. fold s'. unfold st. unfn.
    split; [reflexivity|]. split; [exact IDN|]. split; [|right; auto]. apply (below_trans y c); [|exact B]. apply (below_up _ c y P). constructor.
  - intros p' c' n' P' C'. pose proof (i_toks _ I p' c' n' P' C') as H. pose proof (not_self _ _ P') as NS. unfold tok in *.
    change (wire s') with w. unfold w. rewrite !cnt_one. unfold s'. cbn [isReg isAck].
    destruct (Nat.eq_dec c' y) as [->|NC].
    + rewrite PY in P'. injection P' as <-. rewrite pend_other by congruence. rewrite Nat.eqb_refl. cbn [andb].
      unfold settled, here in *. rewrite upd_same. unfold st. unfn. rewrite findF_app. cbn [fe_name]. destruct (String.eqb_spec n n') as [<-|].
      * rewrite F in *. cbn [fe_gid]. rewrite Z.eqb_refl. lia.
      * destruct (findF (n_feds (nodes s y)) n'); lia.
    + rewrite settled_other, here_other by exact NC. destruct (Nat.eqb_spec y c') as [E|_]; [congruence|]. cbn [andb].
      destruct (Nat.eq_dec p' y) as [->|NP]; [|rewrite pend_other by exact NP; lia].
      unfold pend in *. rewrite upd_same. unfold st. unfn. rewrite findF_app. cbn [fe_name]. destruct (String.eqb_spec n n') as [<-|].
      * rewrite F in *. cbn [fe_gid fe_route]. rewrite Z.eqb_refl, (routes_lookup s y r c K RC). cbn [andb]. destruct (Nat.eqb_spec c c') as [<-|]; [|lia].
        specialize (TK C'). lia.
      * destruct (findF (n_feds (nodes s y)) n'); lia.
Qed.

Lemma regFed_inv s c y n src ct o ok : inv s -> small s -> small (deliver s y (RegFed n src ct o) ok) -> okp s (c, y, RegFed n src ct o) ->
  (t_core T c = false -> (tok s y c n + 1 <= here s c n)%nat) -> inv (deliver s y (RegFed n src ct o) ok).
Proof.
  intros I S S' (P & E & N & B & BF) TK. unfold deliver, receive in *. rewrite (static_core s y I) in *. rewrite (parent_core _ _ P) in *. unfold fedRegistration in *.
  destruct (route_to_child s y c I S P ltac:(congruence)) as (r & RT & RC). rewrite <- E in RT. rewrite RT in *.
  assert (REF : inv (upd s y (nodes s y) (wire s ++ packets T y (nodes s y) [(ToRoute r, FedAck n (n_id (nodes s y)) parentId true o)]))).
  { apply same_node. unfold packets. cbn [flat_map fst snd app]. rewrite (resolve_route s y r c I RC) by reflexivity. apply refuseF_inv; assumption. }
  destruct ok; cbn [negb] in *; [|exact REF]. destruct (findF (n_feds (nodes s y)) n) as [e|] eqn:F; [exact REF|]. clear REF.
  rewrite (static_root s y I) in *. destruct (Nat.eqb_spec y root) as [->|NR]; cbv zeta in *; cbn [fst snd] in *.
  - unfold packets. cbn [flat_map fst snd app]. rewrite (resolve_route s root r c I RC) by reflexivity.
    apply (addF_root s c n ct o r I P RC B BF F); [|exact TK]. destruct S' as [_ S']. rewrite upd_same in S'. unfn. rewrite app_length in S'. cbn [length] in S'. lia.
  - destruct (has_parent y NR) as [p PY]. unfn. assert (IDN : n_id (nodes s y) <> 0).
    { destruct (k_id _ _ (i_nodes _ I c) (not_root _ _ P)) as [[H _]|(_ & _ & H)]; [congruence|]. apply H, P. }
    rewrite (id_valid s y I S IDN). cbn [fst snd]. unfold packets. cbn [flat_map fst snd app]. unfold resolve. change (parentRoute =? parentRoute) with true. cbn iota. rewrite PY.
    apply (addF_up s y p c n ct o r I PY P RC B BF F IDN TK).
Qed.

Lemma ackFed_inv s y z n src dst err o ok : inv s -> small s -> okp s (y, z, FedAck n src dst err o) ->
  (t_core T z = false -> (tok s y z n + 1 <= here s z n)%nat) -> inv (deliver s z (FedAck n src dst err o) ok).
Proof.
  intros I S (P & B & BF & D) TK. pose proof (i_nodes _ I z) as K. pose proof (not_root _ _ P) as NR. pose proof (root_flag s I) as R.
  unfold deliver, receive. rewrite (static_core s z I). destruct (t_core T z) eqn:C.
  - unfold coreFedAck. destruct err; [apply nothing_inv, I|]. cbn [fst snd]. rewrite packets_nil, app_nil_r. destruct D as [RF KA].
    assert (o = z). { destruct (Nat.eq_dec o z) as [|N]; [assumption|]. rewrite (below_other z o B N) in C. discriminate. } subst o.
    set (st := set_n_local _ _). assert (L : nle (nodes s z) st).
    { constructor; unfold st; unfn; auto using incl_refl. rewrite map_map. intros a H. apply in_map_iff in H. destruct H as (f & <- & H). apply in_map_iff. exists f. split; [|exact H].
      destruct (String.eqb (fst f) n); reflexivity. }
    pose proof (upd_le s z st (wire s) L) as LE. set (s' := upd s z st (wire s)) in *. apply upd_inv; auto; fold s'.
    + apply (grow_ok s s' z I LE); unfold s'; rewrite ?upd_same; fold s'; unfold st; unfn; auto.
      * destruct (k_static _ _ K) as (_ & _ & _ & H). auto.
      * apply K.
      * apply K.
      * apply same_routes, I.
      * intros n0 g0 r0 o0 H. left. exists g0. exact H.
      * intros n0 g0 r0 o0 H. left. exists g0. exact H.
      * intros n0 g0 H. apply in_map_iff in H. destruct H as ((n1 & g1) & E & H). cbn [fst] in E. destruct (String.eqb_spec n1 n) as [->|].
        -- injection E as <- <-. right. split; [exact C|]. right. split; [apply (le_regF s s' LE R), RF|apply (le_knownAbove s s' LE), KA].
        -- injection E as <- <-. left. exact H.
      * apply K.
    + apply rootOk_other; assumption.
    + apply (toks_same s); auto.
      * apply upd_feds. reflexivity.
      * apply upd_routes. exists []. rewrite app_nil_r. reflexivity.
  - specialize (TK eq_refl). destruct BF as [[-> LO]|[NO HF]].
    + exfalso. unfold inLocal in LO. apply in_map_iff in LO. destruct LO as ((n1 & g1) & _ & H). destruct (k_local _ _ K n1 g1 H). congruence.
    + destruct (hasF_find s z n o I HF) as (g & r & F & IN). unfold brokerFedAck. rewrite F. cbn [fe_gid fe_route].
      assert (G : g = invalidId).
      { unfold tok, settled, here in TK. rewrite F in TK. cbn [fe_gid] in TK. destruct (Z.eqb_spec g invalidId); [assumption|lia]. }
      subst g. change (isValid invalidId) with false. cbn [fst snd].
      destruct (k_feds _ _ K n invalidId r o IN) as (c & RC & BC & BH). pose proof (proj1 (proj1 (k_routes _ _ K) r c RC)) as PC.
      unfold packets. cbn [flat_map fst snd app]. rewrite (resolve_route s z r c I RC) by reflexivity. cbn [app].
      assert (DV : dst <> invalidId).
      { destruct err; [rewrite D; discriminate|]. destruct D as [RF _]. destruct (owner_valid s dst o I S (or_intror (ex_intro (fun n => regF s n dst o) n RF))) as (V & _).
        intros ->. discriminate. }
      match goal with |- inv (upd s z ?st' ?w') => set (w := w'); set (st := st') end.
      assert (L : nle (nodes s z) st).
      { constructor; unfold st; unfn; auto using incl_refl.
        - intros n0 o0 H. apply updF_has, H.
        - intros Q. destruct (k_static _ _ K) as (H & _). rewrite Q in H. symmetry in H. apply Nat.eqb_eq in H. contradiction.
        - intros g0 H. rewrite lookup_emplace. destruct (lookup (n_table (nodes s z)) g0); [discriminate|congruence]. }
      pose proof (upd_le s z st w L) as LE. set (s' := upd s z st w) in *.
      assert (RC' : In (r, c) (n_routes (nodes s' z))) by (apply (l_routes _ _ (LE z)), RC).
      apply upd_inv; auto; fold s'.
      * apply (grow_ok s s' z I LE); unfold s'; rewrite ?upd_same; fold s'; unfold st; unfn; auto.
        -- destruct (k_static _ _ K) as (_ & _ & _ & H). auto.
        -- apply K.
        -- rewrite names_updF. apply K.
        -- apply same_routes, I.
        -- intros g0 r0. rewrite lookup_emplace. destruct (lookup (n_table (nodes s z)) g0); [auto|]. destruct (Z.eqb_spec dst g0) as [<-|]; [|discriminate].
           intros H. injection H as <-. right. destruct err; [left; exact D|right]. exists o. split; [right; exists n; apply (le_regF s s' LE R), D|exists c; auto].
        -- intros n0 g0 r0 o0 H. left. exists g0. exact H.
        -- intros n0 g0 r0 o0 H. left. apply in_updF in H. exact H.
        -- intros C'. congruence.
      * apply rootOk_other; assumption.
      * intros q Q. apply in_app_or in Q. destruct Q as [Q|[<-|[]]]; [left; exact Q|right]. cbn [okp]. split; [exact PC|]. split; [exact BC|].
        split; [apply (behindF_le s s' c n o LE), BH|]. destruct err; [exact D|]. destruct D as (RB & KA).
        split; [apply (le_regF s s' LE R), RB|]. intros x X. destruct (above_parent _ _ _ PC X) as [->|X']; [|apply (le_known s s' LE), KA, X'].
        unfold known, s'. rewrite upd_same. unfold st. unfn. rewrite lookup_emplace, Z.eqb_refl. destruct (lookup (n_table (nodes s z)) dst); discriminate.
      * intros p' c' n' P' C'. pose proof (i_toks _ I p' c' n' P' C') as H. pose proof (not_self _ _ P') as NS. unfold tok in *.
        change (wire s') with w. unfold w. rewrite !cnt_one. unfold s'. cbn [isReg isAck].
        destruct (Nat.eq_dec c' z) as [->|NC].
        -- rewrite P in P'. injection P' as <-. rewrite pend_other by congruence. destruct (Nat.eqb_spec c z) as [E|_]; [pose proof (not_self _ _ PC); congruence|]. cbn [andb].
           unfold settled, here in *. rewrite upd_same. unfold st. unfn. rewrite findF_upd. destruct (String.eqb_spec n' n) as [->|].
           ++ rewrite F in *. cbn [fe_gid] in *. apply Z.eqb_neq in DV. rewrite DV. rewrite Z.eqb_refl in TK. lia.
           ++ destruct (findF (n_feds (nodes s z)) n'); lia.
        -- rewrite settled_other, here_other by exact NC. destruct (Nat.eq_dec p' z) as [->|NP].
           ++ unfold pend in *. rewrite upd_same. unfold st. unfn. rewrite findF_upd. destruct (String.eqb_spec n' n) as [->|].
              ** rewrite F in *. cbn [fe_gid fe_route] in *. apply Z.eqb_neq in DV. rewrite DV. rewrite Z.eqb_refl, (routes_lookup s z r c K RC) in H. cbn [andb] in *. rewrite String.eqb_refl, andb_true_r. destruct (Nat.eqb c c'); lia.
              ** destruct (String.eqb_spec n n'); [congruence|]. rewrite andb_false_r. destruct (findF (n_feds (nodes s z)) n'); lia.
           ++ rewrite pend_other by exact NP. destruct (Nat.eqb_spec c c') as [<-|]; cbn [andb]; [congruence|lia].
Qed.

(** ** a federate asks *)
Lemma register_inv s x p n ct : inv s -> t_core T x = true -> par x = Some p -> n_id (nodes s x) <> 0 ->
  inv (upd s x (set_n_local (n_local (nodes s x) ++ [(n, invalidId)]) (nodes s x)) (wire s ++ [(x, p, RegFed n (n_id (nodes s x)) ct x)])).
Proof.
  intros I C P N. pose proof (i_nodes _ I x) as K. pose proof (not_root _ _ P) as NR. set (st := set_n_local _ _). set (w := wire s ++ _).
  assert (L : nle (nodes s x) st).
  { constructor; unfold st; unfn; auto using incl_refl. rewrite map_app. apply incl_appl, incl_refl. }
  pose proof (upd_le s x st w L) as LE. set (s' := upd s x st w) in *. apply upd_inv; auto; fold s'.
  - apply (grow_ok s s' x I LE); unfold s'; rewrite ?upd_same; fold s'; unfold st; unfn; auto.
    + destruct (k_static _ _ K) as (_ & _ & _ & H). auto.
    + apply K.
    + apply K.
    + apply same_routes, I.
    + intros n0 g0 r0 o0 H. left. exists g0. exact H.
    + intros n0 g0 r0 o0 H. left. exists g0. exact H.
    + intros n0 g0 H. apply in_app_or in H. destruct H as [H|[H|[]]]; [left; exact H|right]. injection H as <- <-. auto.
    + apply K.
  - apply rootOk_other; assumption.
  - intros q Q. apply in_app_or in Q. destruct Q as [Q|[<-|[]]]; [left; exact Q|right]. cbn [okp]. split; [exact P|]. unfold s'. rewrite upd_same. fold s'. unfold st. unfn.
    split; [reflexivity|]. split; [exact N|]. split; [constructor|]. left. split; [reflexivity|]. unfold inLocal, s'. rewrite upd_same. unfold st. unfn.
    rewrite map_app. apply in_or_app. right. left. reflexivity.
  - apply (toks_same s); auto.
    + apply upd_feds. reflexivity.
    + apply upd_routes. exists []. rewrite app_nil_r. reflexivity.
    + intros c n0 Cc. unfold s', w. cbn [upd wire]. rewrite !cnt_one. cbn [isReg isAck]. destruct (Nat.eqb_spec x c) as [->|]; [congruence|]. cbn [andb]. lia.
Qed.

(** ** every step *)
Definition noResend (e : event) : Prop := match e with E_resend _ => False | _ => True end.
Lemma step_inv s e : noResend e -> inv s -> small s -> small (step T s e) -> inv (step T s e).
Proof.
  intros NR I S S'. destruct e as [x|x|x n ct|k ok|k]; cbn [step noResend] in *; [| contradiction | | |].
  - destruct (par x) as [p|] eqn:P; [|exact I]. apply connect_inv; assumption.
  - destruct (t_core T x) eqn:C; cbn [andb]; [|exact I]. destruct (isValid (n_id (nodes s x))); cbn [andb]; [|exact I].
    destruct (Z.eqb_spec (n_id (nodes s x)) parentId) as [|N]; cbn [negb andb]; [exact I|]. destruct (existsb _ _); cbn [negb]; [exact I|].
    destruct (par x) as [p|] eqn:P; [|exact I]. apply register_inv; assumption.
  - destruct (nth_error (wire s) k) as [[[y z] m]|] eqn:Q; [|exact I]. pose proof (lose_inv s k I) as I0. set (s0 := mkNet (nodes s) (without k (wire s))) in *.
    assert (S0 : small s0) by exact S. assert (OK : okp s0 (y, z, m)).
    { apply (le_okp s s0); [intros x; apply nle_refl|apply root_flag, I|]. apply (i_wire _ I). apply (nth_error_In _ k), Q. }
    assert (E : (let '(st, out) := receive (nodes s z) m ok in mkNet (setNode (nodes s) z st) (without k (wire s) ++ packets T z st out)) = deliver s0 z m ok).
    { unfold deliver, upd. change (nodes s0) with (nodes s). change (wire s0) with (without k (wire s)). destruct (receive (nodes s z) m ok). reflexivity. }
    rewrite E in *. destruct m as [n src a c|n src c o|n src dst err o|n src dst err o].
    + assert (c = 0) by apply OK. subst c. unfold deliver, receive. rewrite (static_core s0 z I0), (parent_core y z) by apply OK. apply (regBroker_inv s0 y z n src a ok I0 S0 OK).
    + apply (regFed_inv s0 y z n src c o ok I0 S0 S' OK). intros C. assert (P : par y = Some z) by apply OK. pose proof (i_toks _ I z y n P C) as H.
      unfold tok in *. rewrite (cnt_without _ _ _ _ Q) in H. cbn [isReg] in H. rewrite Nat.eqb_refl, String.eqb_refl in H. cbn [andb] in H.
      pose proof (cnt_without_le (isAck y n) (wire s) k). change (wire s0) with (without k (wire s)).
      change (pend s0 z y n) with (pend s z y n). change (settled s0 y n) with (settled s y n). change (here s0 y n) with (here s y n). lia.
    + apply (ackBroker_inv s0 y z n src dst err o ok I0 S0 OK).
    + apply (ackFed_inv s0 y z n src dst err o ok I0 S0 OK). intros C. assert (P : par z = Some y) by apply OK. pose proof (i_toks _ I y z n P C) as H.
      unfold tok in *. pose proof (cnt_without_le (isReg z n) (wire s) k). rewrite (cnt_without (isAck z n) _ _ _ Q) in H. cbn [isAck] in H. rewrite Nat.eqb_refl, String.eqb_refl in H. cbn [andb] in H.
      change (wire s0) with (without k (wire s)).
      change (pend s0 y z n) with (pend s y z n). change (settled s0 z n) with (settled s z n). change (here s0 z n) with (here s z n). lia.
  - apply lose_inv, I.
Qed.
End Tree.
