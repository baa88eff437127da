(** * C50: messages to a known endpoint arrive once and in order *)
From Coq Require Import String ZArith Bool List Lia ZifyBool.
From Verif Require Import HTime Action Interfaces PropsInput Ids Route RouteInv PropsRoute Deliver PropsDeliver Mail PropsMail.
Import ListNotations.
Open Scope Z_scope.

Section Flow.
Variable T : topology.
Notation mstep := (mstep T).
Notation mrun := (mrun T).

(** ** Specification *)
Definition routesOf (es : list mevent) : list event := flat_map (fun e => match e with P_route e => [e] | _ => [] end) es.
(** the name [n] is known as the endpoint [h] of the core [K] there and at all brokers above it: its registration is complete *)
Definition known (s : msys) (n : string) (h : Z * Z) (K : nat) : Prop := forall x, below T x K -> lookupName (p_names s x) n = Some h.
(** no federate of another core registers the name *)
Definition alone (es : list mevent) (n : string) (K : nat) : Prop := forall e1 K' g e2, es = e1 ++ P_register K' g n :: e2 -> K' = K.
(** a message from [a] to the endpoint [h] named [n] *)
Definition isTo (a : Z * Z) (n : string) (h : Z * Z) (m : msg) : bool :=
  gh_eqb (k_src m) a && match k_dest m with Some h' => gh_eqb h' h | None => String.eqb (k_name m) n end.
Definition key (m : msg) : nat * list Z := (k_seq m, k_data m).
(** what is sent from [a] to [n] after the history es1, and what of it [h] has been handed *)
Definition sentAfter (es1 es2 : list mevent) (a : Z * Z) (n : string) (h : Z * Z) : list (nat * list Z) := map key (filter (isTo a n h) (mailsFrom T (mrun es1) es2)).
Definition gotAfter (es1 es2 : list mevent) (a : Z * Z) (n : string) (h : Z * Z) : list (nat * list Z) :=
  map key (filter (fun m => isTo a n h m && Nat.leb (p_count (mrun es1)) (k_seq m)) (p_box (mrun (es1 ++ es2)) (fst h))).
(** none of them is under way *)
Definition arrivedAfter (es1 es2 : list mevent) (a : Z * Z) (n : string) (h : Z * Z) : Prop :=
  forall x y m, In (Mail m) (p_links (mrun (es1 ++ es2)) x y) -> (p_count (mrun es1) <= k_seq m)%nat -> isTo a n h m = false.

(** ** general facts *)
Lemma routesOf_app a b : routesOf (a ++ b) = routesOf a ++ routesOf b.
Proof. apply flat_map_app. Qed.
Lemma does_net y e s : p_net (does T y e s) = p_net s /\ p_own (does T y e s) = p_own s /\ p_count (does T y e s) = p_count s /\ forall x, exists l, p_names (does T y e s) x = p_names s x ++ l.
Proof.
  destruct e as [n h|m].
  - destruct (does_reg T y n h s) as [->|[->|(z & _ & ->)]]; (split; [reflexivity|split; [reflexivity|split; [reflexivity|]]]); intros x; cbn [p_names learn set_p_names putOn set_p_links]; [exists []; rewrite app_nil_r; reflexivity| |]; (destruct (Nat.eqb x y); [eexists; reflexivity|exists []; rewrite app_nil_r; reflexivity]).
  - destruct (does_mail T y m s) as [[(z & ->)|(h & (z & ->) & _)]|(o & (_ & _ & C3 & C4 & C5 & C6 & _) & _)]; [| |rewrite C3, C4, C5, C6]; (split; [reflexivity|split; [reflexivity|split; [reflexivity|]]]); intros x; exists []; rewrite app_nil_r; reflexivity.
Qed.
Lemma net_mrun es : p_net (mrun es) = run T (routesOf es) (net0 T).
Proof.
  induction es as [|e es IH] using rev_ind; [reflexivity|]. rewrite mrun_snoc, routesOf_app. unfold run. rewrite fold_left_app. fold (run T (routesOf es) (net0 T)). rewrite <- IH.
  destruct e as [e|K g n|K a n opt data|K a ts data|x y]; cbn [Mail.mstep routesOf flat_map app fold_left p_net set_p_net]; try reflexivity.
  - unfold registerEnd. destruct (_ && _); reflexivity.
  - unfold sendName. destruct (localFed _ _); reflexivity.
  - unfold sendTargets. destruct (localFed _ _); reflexivity.
  - unfold attend. destruct (p_links _ _ _) as [|e r]; [reflexivity|]. exact (proj1 (does_net y e _)).
Qed.
Lemma names_grow s e x : exists l, p_names (mstep s e) x = p_names s x ++ l.
Proof.
  destruct e as [e|K g n|K a n opt data|K a ts data|u v]; cbn [Mail.mstep].
  - exists []. rewrite app_nil_r. reflexivity.
  - exists []. rewrite app_nil_r. unfold registerEnd. destruct (localFed _ _ && _); reflexivity.
  - exists []. rewrite app_nil_r. unfold sendName. destruct (localFed (nodes (p_net s) K) (fst a)); reflexivity.
  - exists []. rewrite app_nil_r. unfold sendTargets. destruct (localFed (nodes (p_net s) K) (fst a)); reflexivity.
  - unfold attend. destruct (p_links _ _ _) as [|e r]; [exists []; rewrite app_nil_r; reflexivity|]. exact (proj2 (proj2 (proj2 (does_net v e _))) x).
Qed.
Lemma lookup_grows l l' n h : lookupName l n = Some h -> lookupName (l ++ l') n = Some h.
Proof. unfold lookupName. induction l as [|p l IH]; [discriminate|]. cbn [app find]. destruct (String.eqb (fst p) n); auto. Qed.
Lemma known_grows s e n h K : known s n h K -> known (mstep s e) n h K.
Proof. intros H x B. destruct (names_grow s e x) as [l ->]. apply lookup_grows, H, B. Qed.
Lemma own_step s e K : p_own (mstep s e) K = p_own s K \/ exists g n, e = P_register K g n /\ p_own (mstep s e) K = p_own s K ++ [(n, (g, Z.of_nat (length (p_own s K))))] /\ localFed (nodes (p_net s) K) g = true.
Proof.
  destruct e as [e|K' g n|K' a n opt data|K' a ts data|u v]; cbn [Mail.mstep]; auto.
  - unfold registerEnd. destruct (localFed _ _) eqn:L; [|auto]. destruct (lookupName _ _); cbn [andb]; [auto|]. cbn [p_own putOn set_p_links set_p_own]. destruct (Nat.eqb_spec K K') as [->|N]; [|auto]. right. exists g, n. split; [reflexivity|]. split; [reflexivity|exact L].
  - unfold sendName. destruct (localFed _ _); auto.
  - unfold sendTargets. destruct (localFed _ _); auto.
  - unfold attend. destruct (p_links _ _ _) as [|e r]; [auto|]. left. rewrite (proj1 (proj2 (does_net v e _))). reflexivity.
Qed.
Lemma own_index es K k n h : nth_error (p_own (mrun es) K) k = Some (n, h) -> snd h = Z.of_nat k.
Proof.
  revert k. induction es as [|e es IH] using rev_ind; intros k; [destruct k; discriminate|]. rewrite mrun_snoc. destruct (own_step (mrun es) e K) as [->|(g & m & _ & -> & _)]; [apply IH|].
  intros H. destruct (Nat.ltb_spec k (length (p_own (mrun es) K))) as [L|L]; [rewrite nth_error_app1 in H by exact L; apply IH, H|]. rewrite nth_error_app2 in H by exact L. destruct (k - length (p_own (mrun es) K))%nat as [|j] eqn:Q; [|destruct j; discriminate]. injection H as <- <-. cbn. lia.
Qed.
Lemma count_grows s e : (p_count s <= p_count (mstep s e))%nat.
Proof.
  destruct e as [e|K g n|K a n opt data|K a ts data|u v]; cbn [Mail.mstep]; [apply le_n| | | |].
  - unfold registerEnd. destruct (_ && _); apply le_n.
  - unfold sendName. destruct (localFed _ _); [cbn; lia|apply le_n].
  - unfold sendTargets. destruct (localFed _ _); [cbn; lia|apply le_n].
  - unfold attend. destruct (p_links _ _ _) as [|e r]; [apply le_n|]. rewrite (proj1 (proj2 (proj2 (does_net v e _)))). apply le_n.
Qed.
Lemma mails_below es m : In m (mails T es) -> (k_seq m < p_count (mrun es))%nat.
Proof. intros I. apply (in_map k_seq) in I. rewrite C50_messages_are_numbered in I. apply in_seq in I. lia. Qed.

Section History.
Variables (es1 es2 : list mevent) (a : Z * Z) (n : string) (h : Z * Z) (K : nat) (nm : string) (K0 : nat) (n0 : string).
Let es := es1 ++ es2.
Hypothesis fair : fairHistory T (routesOf es).
Hypothesis RK : registered (p_net (mrun es1)) K nm (fst h).
Hypothesis RA : registered (p_net (mrun es)) K0 n0 (fst a).
Hypothesis KN : known (mrun es1) n h K.
Hypothesis AL : alone es n K.
Lemma fair_at e1 e2 : es = e1 ++ e2 -> fairHistory T (routesOf e1).
Proof. intros E. pose proof fair as F. rewrite E, routesOf_app in F. apply (fair_prefix _ _ _ F). Qed.
Lemma stays e1 e2 e3 x m g : es = e1 ++ e2 ++ e3 -> registered (p_net (mrun e1)) x m g -> registered (p_net (mrun (e1 ++ e2))) x m g.
Proof. intros E R. rewrite app_assoc in E. pose proof (fair_at _ _ E) as F. rewrite net_mrun in R |- *. rewrite routesOf_app in F |- *. apply C44_ids_are_permanent; [exact F|exact R]. Qed.
Lemma same_core e1 e2 x m x' m' g : es = e1 ++ e2 -> registered (p_net (mrun e1)) x m g -> registered (p_net (mrun e1)) x' m' g -> x = x'.
Proof. intros E R R'. rewrite net_mrun in R, R'. apply (C44_federates_are_distinct T (routesOf e1) (fair_at _ _ E) x m g x' m' g R R' (or_intror eq_refl)). Qed.
Lemma RKat e2 e3 : es2 = e2 ++ e3 -> registered (p_net (mrun (es1 ++ e2))) K nm (fst h).
Proof. intros E. apply (stays es1 e2 e3); [unfold es; rewrite E; reflexivity|exact RK]. Qed.
Lemma KNat e2 e3 : es2 = e2 ++ e3 -> known (mrun (es1 ++ e2)) n h K.
Proof.
  revert e3. induction e2 as [|e e2 IH] using rev_ind; intros e3 E; [rewrite app_nil_r; exact KN|]. rewrite app_assoc, mrun_snoc. apply known_grows, (IH (e :: e3)). rewrite E, <- app_assoc. reflexivity.
Qed.
Lemma own_alone e1 e2 K' h' : es = e1 ++ e2 -> In (n, h') (p_own (mrun e1) K') -> K' = K.
Proof.
  revert e2. induction e1 as [|e e1 IH] using rev_ind; intros e2 E; [intros []|]. rewrite <- app_assoc in E. rewrite mrun_snoc. destruct (own_step (mrun e1) e K') as [->|(g & m & -> & -> & _)]; [apply (IH _ E)|].
  intros I. apply in_app_or in I as [I|[I|[]]]; [apply (IH _ E I)|]. injection I as -> _. apply (AL e1 K' g e2). exact E.
Qed.
Lemma own_local e1 e2 K' n' h' : es = e1 ++ e2 -> In (n', h') (p_own (mrun e1) K') -> fst h' = invalidId \/ exists m, registered (p_net (mrun e1)) K' m (fst h').
Proof.
  revert e2. induction e1 as [|e e1 IH] using rev_ind; intros e2 E; [intros []|]. rewrite <- app_assoc in E.
  assert (KP : (fst h' = invalidId \/ exists m, registered (p_net (mrun e1)) K' m (fst h')) -> fst h' = invalidId \/ exists m, registered (p_net (mrun (e1 ++ [e]))) K' m (fst h')) by (intros [Q|(m & R)]; [auto|right; exists m; apply (stays e1 [e] e2 _ _ _ E R)]).
  rewrite mrun_snoc at 1. destruct (own_step (mrun e1) e K') as [->|(g & m & -> & -> & L)]; [intros I; apply KP, (IH _ E I)|].
  intros I. apply KP. apply in_app_or in I as [I|[I|[]]]; [apply (IH _ E I)|]. injection I as <- <-. cbn [fst]. destruct (Z.eq_dec g invalidId) as [Q|Q]; [auto|]. right.
  unfold localFed in L. apply existsb_exists in L as ((m' & g') & L1 & L2). cbn [snd] in L2. apply Z.eqb_eq in L2. subst g'. exists m'. split; assumption.
Qed.
Lemma own_name e2 e3 : es2 = e2 ++ e3 -> In (n, h) (p_own (mrun (es1 ++ e2)) K).
Proof.
  intros E. pose proof (KNat e2 e3 E K (below_refl T K)) as L. apply lookup_in in L. destruct (o_names _ _ _ (traced_run T (es1 ++ e2)) K n h L) as (K' & I & _).
  rewrite (own_alone (es1 ++ e2) e3 K' h) in I; [exact I|unfold es; rewrite E, app_assoc; reflexivity|exact I].
Qed.
(** the endpoint has one name, known only where it belongs *)
Lemma one_name e2 e3 x n' : es2 = e2 ++ e3 -> In (n', h) (p_names (mrun (es1 ++ e2)) x) -> n' = n /\ below T x K.
Proof.
  intros E I. assert (EE : es = (es1 ++ e2) ++ e3) by (unfold es; rewrite E, app_assoc; reflexivity). destruct (o_names _ _ _ (traced_run T (es1 ++ e2)) x n' h I) as (K' & O & B).
  assert (Q : K' = K). { destruct (own_local _ _ _ _ _ EE O) as [Q|(m & R)]; [destruct RK as [_ RK']; contradiction|]. apply (same_core _ _ _ _ _ _ _ EE R (RKat e2 e3 E)). } subst K'.
  split; [|exact B]. pose proof (own_name e2 e3 E) as O'. apply In_nth_error in O as [k O], O' as [k' O']. pose proof (own_index _ _ _ _ _ O) as Q1. pose proof (own_index _ _ _ _ _ O') as Q2. assert (k = k') by lia. subst k'. congruence.
Qed.
Lemma unknown e2 e3 x : es2 = e2 ++ e3 -> ~ below T x K -> lookupName (p_names (mrun (es1 ++ e2)) x) n = None.
Proof.
  intros E B. destruct (lookupName _ _) as [h'|] eqn:L; [|reflexivity]. exfalso. apply lookup_in in L. destruct (o_names _ _ _ (traced_run T (es1 ++ e2)) x n h' L) as (K' & O & B'). apply B.
  rewrite <- (own_alone (es1 ++ e2) e3 K' h'); [exact B'|unfold es; rewrite E, app_assoc; reflexivity|exact O].
Qed.

Let c0 := p_count (mrun es1).
Definition cls (m : msg) : bool := isTo a n h m && Nat.leb c0 (k_seq m).
Definition mfl (s : msys) (x y : nat) : list msg := filter cls (mailsIn (p_links s x y)).
Definition mar (s : msys) : list msg := filter cls (p_box s (fst h)).
Let hopF (x : nat) : hop := hopAt T (p_net (mrun es1)) x (fst h).
Lemma hop_at e2 e3 x : es2 = e2 ++ e3 -> hopAt T (p_net (mrun (es1 ++ e2))) x (fst h) = hopF x.
Proof.
  intros E. unfold hopF. pose proof (RKat e2 e3 E) as R. pose proof RK as R'. rewrite net_mrun in R, R'. rewrite !net_mrun. apply (hop_same T _ _ K nm); [apply (fair_at _ e3); unfold es; rewrite E, app_assoc; reflexivity|apply (fair_at _ es2); reflexivity|exact R|exact R'].
Qed.
(** ** what a node does with one of the messages *)
Lemma class_moves e2 e3 y m s1 : es2 = e2 ++ e3 -> cls m = true -> p_net s1 = p_net (mrun (es1 ++ e2)) -> p_names s1 = p_names (mrun (es1 ++ e2)) ->
  match hopF y with
  | Here => y = K /\ comesTo m (Delivered h) s1 (does T y (Mail m) s1)
  | Next z => exists m', key m' = key m /\ cls m' = true /\ does T y (Mail m) s1 = putOn y z [Mail m'] s1
  | Lost => False
  end.
Proof.
  intros E C NET NAM. set (s := mrun (es1 ++ e2)) in *. pose proof (RKat e2 e3 E) as R. assert (KNs : known s n h K) by exact (KNat e2 e3 E). pose proof (proj1 fair) as HT.
  assert (FP : fairHistory T (routesOf (es1 ++ e2))) by (apply (fair_at _ e3); unfold es; rewrite E, app_assoc; reflexivity).
  assert (CK : t_core T K = true) by (rewrite net_mrun in R; apply (registered_core T _ FP K nm (fst h) R)).
  assert (KR : K <> t_root T) by (intros Q; destruct HT as (_ & C0 & _); rewrite <- Q, CK in C0; discriminate).
  assert (HF : hopF K = Here /\ (forall x, above T x K -> exists c, t_parent T c = Some x /\ below T c K /\ hopF x = Next c) /\ (forall x p, x <> K -> ~ above T x K -> t_parent T x = Some p -> hopF x = Next p)).
  { unfold hopF. rewrite net_mrun. apply (hop_facts T _ K nm (fst h)); [apply (fair_at _ es2); reflexivity|]. pose proof RK as R'. rewrite net_mrun in R'. exact R'. }
  destruct HF as (H1 & H2 & H3).
  assert (NB : forall x, x <> K -> ~ above T x K -> ~ below T x K) by (intros x N A B; apply A, below_above; [exact B|exact N]).
  assert (AB : forall x, above T x K -> below T x K). { intros x (c & P & B). apply (below_trans T x c K); [apply (below_up T x c x P); constructor|exact B]. }
  assert (AC : forall x, above T x K -> t_core T x = false). { intros x (c & P & _). destruct HT as (_ & _ & _ & W). apply (W c x P). }
  assert (RT : above T (t_root T) K) by (apply below_above; [apply below_root, HT|congruence]).
  unfold cls in C. apply andb_true_iff in C as [C1 C2]. unfold isTo in C1. apply andb_true_iff in C1 as [C1 C3].
  assert (CD : forall o, cls (setDest h (mkMsg (k_seq m) (k_src m) (k_name m) o (k_opt m) (k_data m))) = true).
  { intros o. unfold cls, isTo. cbn [k_src k_dest k_seq setDest]. rewrite C1, C2. assert (Q : gh_eqb h h = true) by (apply gh_eqb_eq; reflexivity). rewrite Q. reflexivity. }
  assert (CM : cls m = true) by (unfold cls, isTo; rewrite C1, C2, C3; reflexivity).
  unfold does. destruct (t_core T y) eqn:CY.
  - unfold coreDoes. rewrite NAM. destruct (Nat.eq_dec y K) as [->|NK].
    + rewrite H1. split; [reflexivity|]. assert (FD : match k_dest m with None => lookupName (p_names s K) (k_name m) | Some h' => if hasHandle (p_names s K) h' then Some h' else None end = Some h).
      { pose proof (KNs K (below_refl T K)) as L. destruct (k_dest m) as [h'|].
        - apply gh_eqb_eq in C3. subst h'. replace (hasHandle (p_names s K) h) with true; [reflexivity|]. symmetry. unfold hasHandle. apply existsb_exists. exists (n, h). split; [apply lookup_in, L|apply gh_eqb_eq; reflexivity].
        - apply String.eqb_eq in C3. rewrite C3. exact L. }
      rewrite FD. unfold hand. rewrite NET. assert (LF : localFed (nodes (p_net s) K) (fst h) = true). { unfold localFed. apply existsb_exists. exists (nm, fst h). split; [apply R|apply Z.eqb_refl]. } rewrite LF. repeat split.
    + assert (NA : ~ above T y K) by (intros A; rewrite (AC y A) in CY; discriminate). pose proof (NB y NK NA) as NBy.
      assert (FD : match k_dest m with None => lookupName (p_names s y) (k_name m) | Some h' => if hasHandle (p_names s y) h' then Some h' else None end = None).
      { destruct (k_dest m) as [h'|].
        - apply gh_eqb_eq in C3. subst h'. destruct (hasHandle _ _) eqn:HH; [|reflexivity]. exfalso. unfold hasHandle in HH. apply existsb_exists in HH as ((n' & h') & I & Q). cbn [snd] in Q. apply gh_eqb_eq in Q. subst h'. apply NBy, (one_name e2 e3 y n' E I).
        - apply String.eqb_eq in C3. rewrite C3. apply (unknown e2 e3 y E NBy). }
      rewrite FD. assert (NR : y <> t_root T) by (intros Q; destruct HT as (_ & C0 & _); rewrite <- Q, CY in C0; discriminate). destruct (has_parent T HT y NR) as [p P]. rewrite (H3 y p NK NA P). unfold up. rewrite P. exists m. auto.
  - assert (NK : y <> K) by (intros ->; congruence). assert (NXT : forall z, hopF y = Next z -> forall m', route T y h m' s1 = putOn y z [Mail m'] s1) by (intros z HZ m'; unfold route; rewrite NET; unfold s; rewrite (hop_at e2 e3 y E), HZ; reflexivity).
    unfold brokerDoes. rewrite NAM. destruct (above_dec T HT y K) as [A|A].
    + destruct (H2 y A) as (c & _ & _ & HC). rewrite HC. destruct (k_dest m) as [h'|] eqn:D.
      * apply gh_eqb_eq in C3. subst h'. exists m. rewrite (NXT c HC). auto.
      * apply String.eqb_eq in C3. rewrite C3, (KNs y (AB y A)), (NXT c HC). exists (setDest h m). split; [reflexivity|]. split; [apply (CD None)|reflexivity].
    + assert (NR : y <> t_root T) by congruence. destruct (has_parent T HT y NR) as [p P]. pose proof (H3 y p NK A P) as HC. rewrite HC. destruct (k_dest m) as [h'|] eqn:D.
      * apply gh_eqb_eq in C3. subst h'. exists m. rewrite (NXT p HC). auto.
      * apply String.eqb_eq in C3. unfold s. rewrite C3, (unknown e2 e3 y E (NB y NK A)). destruct (Nat.eqb_spec y (t_root T)); [contradiction|]. unfold up. rewrite P. exists m. auto.
Qed.
(** and with the others *)
Lemma others_stay e2 e3 y e s1 : es2 = e2 ++ e3 -> match e with Mail m => cls m = false | Reg _ _ => True end -> p_names s1 = p_names (mrun (es1 ++ e2)) ->
  (forall x z, mfl (does T y e s1) x z = mfl s1 x z) /\ mar (does T y e s1) = mar s1.
Proof.
  intros E C NAM. assert (PU : forall z e', match e' with Mail m => cls m = false | Reg _ _ => True end -> forall s x z', mfl (putOn y z [e'] s) x z' = mfl s x z').
  { intros z e' C' s x z'. unfold mfl. rewrite putOn_links. destruct (_ && _); [|rewrite app_nil_r; reflexivity]. rewrite mailsIn_app, filter_app. destruct e' as [n' h'|m]; cbn [mailsIn flat_map app filter]; [apply app_nil_r|]. rewrite C'. apply app_nil_r. }
  destruct e as [n' h'|m].
  - destruct (does_reg T y n' h' s1) as [->|[->|(z & _ & ->)]]; [auto|split; reflexivity|]. split; [|reflexivity]. intros x z'. rewrite PU by exact I. reflexivity.
  - assert (SD : forall h', (k_dest m = None /\ lookupName (p_names s1 y) (k_name m) = Some h') -> cls (setDest h' m) = false).
    { intros h' (D & L). destruct (cls (setDest h' m)) eqn:Q; [|reflexivity]. exfalso. unfold cls, isTo in Q, C. cbn [k_src k_dest k_seq setDest] in Q. rewrite D in C. apply andb_true_iff in Q as [Q1 Q2]. apply andb_true_iff in Q1 as [Q1 Q3]. rewrite Q1, Q2 in C. apply gh_eqb_eq in Q3. subst h'.
      apply lookup_in in L. rewrite NAM in L. destruct (one_name e2 e3 y (k_name m) E L) as [Q _]. rewrite Q, String.eqb_refl in C. discriminate. }
    destruct (does_mail T y m s1) as [[(z & ->)|(h' & (z & ->) & D)]|(o & (L1 & _ & _ & _ & _ & _ & B1) & OC)].
    + split; [intros x z'; apply PU, C|reflexivity].
    + split; [intros x z'; apply PU, SD, D|reflexivity].
    + split; [intros x z'; unfold mfl; rewrite L1; reflexivity|]. unfold mar. destruct o as [h'| |]; [|rewrite B1; reflexivity|rewrite B1; reflexivity]. rewrite B1. destruct (Z.eqb_spec (fst h) (fst h')) as [Q|]; [|reflexivity]. rewrite filter_app. cbn [filter].
      assert (CF : cls (setDest h' m) = false). { destruct (k_dest m) as [h1|] eqn:D; [|apply SD; auto]. subst h1. unfold cls, isTo in C |- *. cbn [k_src k_dest k_seq setDest]. rewrite D in C. exact C. }
      rewrite CF. apply app_nil_r.
Qed.
Fixpoint mcontent (s : msys) (E : list (nat * nat)) : list msg := match E with [] => [] | e :: E => mcontent s E ++ mfl s (fst e) (snd e) end.
Lemma mcontent_app s u v : mcontent s (u ++ v) = mcontent s v ++ mcontent s u.
Proof. induction u as [|e u IH]; cbn [app mcontent]; [rewrite app_nil_r; reflexivity|]. rewrite IH, app_assoc. reflexivity. Qed.
Lemma mcontent_same s s' E : (forall x y, In (x, y) E -> mfl s' x y = mfl s x y) -> mcontent s' E = mcontent s E.
Proof. induction E as [|(x & y) E IH]; intros H; [reflexivity|]. cbn [mcontent fst snd]. rewrite IH by (intros; apply H; right; assumption). rewrite (H x y) by (left; reflexivity). reflexivity. Qed.
Lemma mcontent_empty s E : (forall x y, In (x, y) E -> mfl s x y = []) -> mcontent s E = [].
Proof. induction E as [|(x & y) E IH]; intros H; [reflexivity|]. cbn [mcontent fst snd]. rewrite IH by (intros; apply H; right; assumption). rewrite (H x y) by (left; reflexivity). reflexivity. Qed.
Definition MJ (E : list (nat * nat)) (e2 : list mevent) : Prop := let s := mrun (es1 ++ e2) in
  (forall x y, ~ In (x, y) E -> mfl s x y = []) /\ map key (mar s ++ mcontent s E) = sentAfter es1 e2 a n h.
Lemma sentAfter_snoc e2 e : sentAfter es1 (e2 ++ [e]) a n h = sentAfter es1 e2 a n h ++ map key (filter (isTo a n h) (mailsOf (mrun (es1 ++ e2)) e)).
Proof.
  unfold sentAfter. rewrite <- map_app, <- filter_app. f_equal. f_equal. unfold Mail.mrun. rewrite fold_left_app. fold (mrun es1). generalize (mrun es1). induction e2 as [|x e2 IH]; intros s; cbn [app mailsFrom fold_left]; [rewrite app_nil_r; reflexivity|]. rewrite IH, app_assoc. reflexivity.
Qed.
Lemma new_numbers s e : (c0 <= p_count s)%nat -> filter cls (mailsOf s e) = filter (isTo a n h) (mailsOf s e).
Proof.
  intros L. apply filter_ext_in. intros m I. unfold cls. replace (Nat.leb c0 (k_seq m)) with true; [apply andb_true_r|]. symmetry. apply Nat.leb_le. enough (p_count s <= k_seq m)%nat by lia.
  destruct e as [e|K' g n'|K' b n' opt data|K' b ts data|u v]; cbn [mailsOf] in I; try contradiction; (destruct (localFed _ _); [|contradiction]).
  - destruct I as [<-|[]]. apply le_n.
  - rewrite <- copies_toTargets in I. revert I. generalize (p_count s). induction ts as [|t ts IH]; intros c I; [contradiction|]. destruct I as [<-|I]; [apply le_n|]. apply IH in I. lia.
Qed.
Lemma copies_src c b data ts m : In m (copies c b data ts) -> k_src m = b.
Proof. revert c. induction ts as [|t ts IH]; intros c; [intros []|]. intros [<-|I]; [reflexivity|apply (IH _ I)]. Qed.
Lemma class_src l b : (forall m, In m l -> k_src m = b) -> filter cls l <> [] -> b = a.
Proof.
  intros H N. destruct (filter cls l) as [|m r] eqn:F; [contradiction N; reflexivity|]. assert (I : In m (filter cls l)) by (rewrite F; left; reflexivity). apply filter_In in I as [I C]. unfold cls, isTo in C.
  apply andb_true_iff in C as [C _]. apply andb_true_iff in C as [C _]. apply gh_eqb_eq in C. rewrite <- (H m I). exact C.
Qed.
Lemma sends_flow s e : (forall x y, e <> P_serve x y) -> (exists K', (filter cls (mailsOf s e) <> [] -> localFed (nodes (p_net s) K') (fst a) = true) /\ forall x y, mfl (mstep s e) x y = mfl s x y ++ if Nat.eqb x K' && Nat.eqb y K' then filter cls (mailsOf s e) else []) /\ mar (mstep s e) = mar s.
Proof.
  intros NS. assert (PL : forall K' l s', p_links s' = p_links s -> forall x y, mfl (putOn K' K' (map Mail l) s') x y = mfl s x y ++ if Nat.eqb x K' && Nat.eqb y K' then filter cls l else []).
  { intros K' l s' Q x y. unfold mfl. rewrite putOn_links, Q, mailsIn_app, filter_app. f_equal. edge; [rewrite mailsIn_map; reflexivity|reflexivity]. }
  assert (NO : forall s', p_links s' = p_links s -> exists K', (filter cls [] <> [] -> localFed (nodes (p_net s) K') (fst a) = true) /\ forall x y, mfl s' x y = mfl s x y ++ if Nat.eqb x K' && Nat.eqb y K' then filter cls [] else []).
  { intros s' Q. exists 0%nat. split; [intros X; contradiction X; reflexivity|]. intros x y. unfold mfl. rewrite Q. destruct (Nat.eqb x 0 && Nat.eqb y 0); cbn [filter]; rewrite app_nil_r; reflexivity. }
  destruct e as [e|K' g n'|K' b n' opt data|K' b ts data|u v]; cbn [Mail.mstep mailsOf].
  - split; [apply NO; reflexivity|reflexivity].
  - unfold registerEnd. destruct (_ && _); [|split; [apply NO; reflexivity|reflexivity]]. split; [|reflexivity]. exists 0%nat. split; [intros X; contradiction X; reflexivity|]. intros x y. unfold mfl. rewrite putOn_links, mailsIn_app, filter_app. cbn [p_links set_p_own]. f_equal. destruct (Nat.eqb x K' && Nat.eqb y K'); cbn; destruct (Nat.eqb x 0 && Nat.eqb y 0); reflexivity.
  - unfold sendName. destruct (localFed (nodes (p_net s) K') (fst b)) eqn:LF; [|split; [apply NO; reflexivity|reflexivity]]. split; [|reflexivity]. exists K'. split; [|apply (PL K' [mkMsg (p_count s) b n' None opt data]); reflexivity].
    intros X. assert (Q : b = a) by (eapply class_src; [|exact X]; intros m [<-|[]]; reflexivity). rewrite <- Q. exact LF.
  - rewrite <- copies_toTargets. unfold sendTargets. destruct (localFed (nodes (p_net s) K') (fst b)) eqn:LF; [|split; [apply NO; reflexivity|reflexivity]]. split; [|reflexivity]. exists K'. split; [|apply PL; reflexivity].
    intros X. assert (Q : b = a) by (eapply class_src; [|exact X]; intros m; apply copies_src). rewrite <- Q. exact LF.
  - contradiction (NS u v). reflexivity.
Qed.
Lemma at_core e2 e3 K1 : es2 = e2 ++ e3 -> localFed (nodes (p_net (mrun (es1 ++ e2))) K1) (fst a) = true -> K1 = K0.
Proof.
  intros E L. unfold localFed in L. apply existsb_exists in L as ((m & g) & I & L). cbn [snd] in L. apply Z.eqb_eq in L. subst g.
  assert (R : registered (p_net (mrun (es1 ++ e2))) K1 m (fst a)) by (split; [exact I|apply RA]).
  assert (Q : es = (es1 ++ e2) ++ e3 ++ []) by (unfold es; rewrite E, app_nil_r, app_assoc; reflexivity). apply (stays (es1 ++ e2) e3 []) in R; [|exact Q]. rewrite app_nil_r in Q. rewrite <- Q in R.
  apply (same_core es [] K1 m K0 n0 (fst a)); [rewrite app_nil_r; reflexivity|exact R|exact RA].
Qed.
Lemma the_way : exists l, way hopF K K0 l.
Proof.
  pose proof RK as R. rewrite net_mrun in R. destruct (C44_commands_reach_the_federate T (routesOf es1) (fair_at es1 es2 eq_refl) K nm (fst h) R K0) as (d & F & _).
  destruct (follow_way T _ K (fst h) _ _ _ F) as (l & W & _). exists l. revert W. apply way_ext. intros y. unfold hopF. rewrite net_mrun. reflexivity.
Qed.
Lemma old_numbers : (forall x y, mfl (mrun es1) x y = []) /\ mar (mrun es1) = [].
Proof.
  assert (NO : forall l, (forall m, In m l -> (k_seq m < c0)%nat) -> filter cls l = []).
  { intros l. induction l as [|m l IH]; intros H; [reflexivity|]. cbn [filter]. unfold cls at 1. replace (Nat.leb c0 (k_seq m)) with false by (symmetry; apply Nat.leb_gt, H; left; reflexivity). rewrite andb_false_r. apply IH. intros m' I. apply H. right. exact I. }
  split.
  - intros x y. apply NO. intros m I. unfold mailsIn in I. apply in_flat_map in I as (e & I & J). destruct e as [n' h'|m']; [destruct J|]. destruct J as [->|[]]. destruct (o_mail _ _ _ (traced_run T es1) x y m I) as (m0 & I0 & (S & _) & _). rewrite S. apply mails_below, I0.
  - apply NO. intros m I. destruct (o_box _ _ _ (traced_run T es1) (fst h) m I) as (m0 & h0 & I0 & (S & _) & _). rewrite S. apply mails_below, I0.
Qed.
Lemma count_at e2 : (c0 <= p_count (mrun (es1 ++ e2)))%nat.
Proof. induction e2 as [|e e2 IH] using rev_ind; [rewrite app_nil_r; apply le_n|]. rewrite app_assoc, mrun_snoc. pose proof (count_grows (mrun (es1 ++ e2)) e). lia. Qed.
Lemma mfl_put x z m s u v : mfl (putOn x z [Mail m] s) u v = mfl s u v ++ if Nat.eqb u x && Nat.eqb v z then if cls m then [m] else [] else [].
Proof. unfold mfl. rewrite putOn_links, mailsIn_app, filter_app. f_equal. edge; [|reflexivity]. cbn [mailsIn flat_map app filter]. reflexivity. Qed.
Lemma MJ_run l : way hopF K K0 l -> forall e2 e3, es2 = e2 ++ e3 -> MJ ((K0, K0) :: l) e2.
Proof.
  intros W. set (E := (K0, K0) :: l). assert (ND : NoDup E).
  { destruct (way_nodup _ _ _ _ W) as [N1 N2]. constructor; [|exact N1]. intros H. apply N2. apply (in_map snd) in H. exact H. }
  induction e2 as [|e e2 IH] using rev_ind; intros e3 EQ.
  - unfold MJ. rewrite app_nil_r. destruct old_numbers as [O1 O2]. split; [intros x y _; apply O1|]. rewrite O2, mcontent_empty by (intros; apply O1). reflexivity.
  - pose proof EQ as EQ'. rewrite <- app_assoc in EQ'. destruct (IH _ EQ') as (J1 & J2). clear IH. unfold MJ. rewrite app_assoc, mrun_snoc, sentAfter_snoc. pose proof (count_at e2) as CA.
    assert (CASE : (forall x y, e <> P_serve x y) \/ exists x y, e = P_serve x y) by (destruct e; try (left; intros; discriminate); right; eauto). destruct CASE as [NS|(x & y & ->)].
    + rewrite <- (new_numbers _ e CA), <- J2. destruct (sends_flow (mrun (es1 ++ e2)) e NS) as ((K' & LF & F1) & F2). pose proof (fun X => at_core e2 _ K' EQ' (LF X)) as ST. clear LF. set (s := mrun (es1 ++ e2)) in *.
      assert (F1' : forall u v, mfl (mstep s e) u v = mfl s u v ++ if Nat.eqb u K0 && Nat.eqb v K0 then filter cls (mailsOf s e) else []).
      { intros u v. rewrite F1. f_equal. destruct (filter cls (mailsOf s e)) as [|c r]; [destruct (Nat.eqb u K' && Nat.eqb v K'), (Nat.eqb u K0 && Nat.eqb v K0); reflexivity|]. rewrite ST by discriminate. reflexivity. }
      split.
      * intros u v NI. rewrite F1', (J1 u v NI), edge_neq; [reflexivity|]. intros Q. apply NI. rewrite Q. left. reflexivity.
      * rewrite F2. assert (C : mcontent (mstep s e) E = mcontent s E ++ filter cls (mailsOf s e)).
        { unfold E. cbn [mcontent fst snd]. rewrite F1', !Nat.eqb_refl. cbn [andb]. rewrite (mcontent_same s (mstep s e) l), app_assoc; [reflexivity|]. intros u v I. rewrite F1', edge_neq, app_nil_r; [reflexivity|].
          intros Q. rewrite Q in I. inversion ND. contradiction. }
        rewrite C, !map_app, <- app_assoc. reflexivity.
    + cbn [mailsOf filter map]. rewrite app_nil_r, <- J2. cbn [Mail.mstep]. set (s := mrun (es1 ++ e2)) in *. destruct (p_links s x y) as [|e r] eqn:LK; [rewrite attend_none by exact LK; auto|]. rewrite (attend_some _ _ _ _ _ _ LK). set (s1 := popped x y r s).
      assert (P1 : forall u v, (u, v) <> (x, y) -> mfl s1 u v = mfl s u v) by (intros u v N; unfold mfl, s1, popped; cbn [p_links set_p_links]; rewrite (edge_neq _ _ _ _ N); reflexivity).
      assert (PX : p_links s1 x y = r) by (unfold s1, popped; cbn [p_links set_p_links]; rewrite !Nat.eqb_refl; reflexivity).
      assert (PA : mar s1 = mar s) by reflexivity.
      assert (C0 : (exists m, e = Mail m /\ cls m = true) \/ match e with Mail m => cls m = false | Reg _ _ => True end) by (destruct e as [n' h'|m]; [auto|destruct (cls m) eqn:C; [left; eauto|auto]]).
      destruct C0 as [(m & -> & CM)|C0].
      2:{ destruct (others_stay e2 _ y e s1 EQ' C0 eq_refl) as [O1 O2]. assert (F0 : forall u v, mfl (does T y e s1) u v = mfl s u v).
          { intros u v. rewrite O1. destruct (edge_dec (u, v) (x, y)) as [Q|Q]; [|apply P1, Q]. injection Q as -> ->. unfold mfl. rewrite PX, LK. change (e :: r) with ([e] ++ r). rewrite mailsIn_app, filter_app. destruct e as [n' h'|m]; [reflexivity|]. cbn [mailsIn flat_map app filter]. rewrite C0. reflexivity. }
          split; [intros u v NI; rewrite F0; apply J1, NI|]. rewrite O2, PA, (mcontent_same s _ E) by (intros; apply F0). reflexivity. }
      assert (SP : mfl s x y = m :: mfl s1 x y). { unfold mfl. rewrite PX, LK. change (Mail m :: r) with ([Mail m] ++ r). rewrite mailsIn_app, filter_app. cbn [mailsIn flat_map app filter]. rewrite CM. reflexivity. }
      assert (I : In (x, y) E) by (destruct (in_dec edge_dec (x, y) E) as [I|I]; [exact I|rewrite (J1 x y I) in SP; discriminate]).
      pose proof (class_moves e2 _ y m s1 EQ' CM eq_refl eq_refl) as MV. pose proof I as I0. apply in_split in I as (u0 & b & EE).
      assert (WB : way hopF K y b). { unfold E in EE. destruct u0 as [|q u0]; [injection EE as <- <- <-; exact W|]. injection EE as _ EE. apply (way_split _ _ _ _ _ _ _ _ W EE). }
      assert (NA : ~ In (x, y) u0 /\ ~ In (x, y) b). { rewrite EE in ND. apply NoDup_remove in ND as [_ ND]. split; intros X; apply ND, in_or_app; auto. } destruct NA as [NA NB].
      destruct (way_inv _ _ _ _ WB) as [(-> & -> & HH)|(z & l0 & -> & HH & WZ)]; rewrite HH in MV.
      * destruct MV as (_ & C1 & _ & _ & _ & _ & _ & C7). set (s' := does T K (Mail m) s1) in *.
        assert (F0 : forall u v, mfl s' u v = mfl s1 u v) by (intros; unfold mfl; rewrite C1; reflexivity).
        assert (A0 : map key (mar s') = map key (mar s) ++ [key m]).
        { unfold mar. rewrite C7, Z.eqb_refl, filter_app, map_app. cbn [filter]. assert (CD : cls (setDest h m) = true); [|rewrite CD; reflexivity].
          unfold cls, isTo in CM |- *. cbn [k_src k_dest k_seq setDest]. apply andb_true_iff in CM as [CM ->]. apply andb_true_iff in CM as [-> _]. assert (Q : gh_eqb h h = true) by (apply gh_eqb_eq; reflexivity). rewrite Q. reflexivity. }
        split.
        -- intros u v NI. rewrite F0, P1; [apply J1, NI|]. intros Q. apply NI. rewrite Q. exact I0.
        -- rewrite map_app, A0, EE, !mcontent_app. cbn [mcontent fst snd app]. rewrite F0, SP.
           rewrite (mcontent_same s s' u0); [rewrite <- app_assoc, (map_app key (mar s)); f_equal; cbn [map app]; f_equal; rewrite !map_app; reflexivity|]. intros u v I. rewrite F0, P1; [reflexivity|]. intros Q. rewrite Q in I. contradiction.
      * destruct MV as (m' & KM & CM' & ->). set (s' := putOn y z [Mail m'] s1) in *.
        assert (SF : forall u v, mfl s' u v = mfl s1 u v ++ if Nat.eqb u y && Nat.eqb v z then [m'] else []) by (intros u v; unfold s'; rewrite (mfl_put y z), CM'; reflexivity).
        assert (NE : (x, y) <> (y, z)). { intros Q. apply NB. rewrite Q. left. reflexivity. }
        assert (NN : NoDup ((y, z) :: l0)). { rewrite EE in ND. apply (nodup_right u0) in ND. inversion ND. assumption. }
        assert (NZ : ~ In (y, z) u0). { intros X. rewrite EE in ND. change ((x, y) :: (y, z) :: l0) with ([(x, y)] ++ (y, z) :: l0) in ND. rewrite app_assoc in ND. apply NoDup_remove in ND as [_ ND]. apply ND, in_or_app. left. apply in_or_app. auto. }
        split.
        -- intros u v NI. rewrite SF, edge_neq, app_nil_r, P1; [apply J1, NI| |]; intros Q; apply NI; rewrite Q; [exact I0|]. rewrite EE. apply in_or_app. right. right. left. reflexivity.
        -- change (mar s') with (mar s). rewrite !map_app. f_equal. rewrite EE, !mcontent_app. cbn [mcontent fst snd]. rewrite !SF, !Nat.eqb_refl. cbn [andb]. rewrite (edge_neq x y y z NE), app_nil_r, (P1 y z) by congruence. rewrite SP.
           rewrite (mcontent_same s s' u0), (mcontent_same s s' l0).
           ++ rewrite !map_app. cbn [map]. rewrite KM, <- !app_assoc. reflexivity.
           ++ intros u v I. rewrite SF, edge_neq, app_nil_r, P1; [reflexivity| |]; intros Q; rewrite Q in I; [apply NB; right; exact I|inversion NN; contradiction].
           ++ intros u v I. rewrite SF, edge_neq, app_nil_r, P1; [reflexivity| |]; intros Q; rewrite Q in I; contradiction.
Qed.
End History.

(** ** the properties *)
(** what an endpoint has been handed of the messages sent to it by name or as a target, after its name has become known, is,
    in order and without repetition, what was sent first *)
Theorem C50_messages_arrive_in_order_once es1 es2 a n h K nm K0 n0 : fairHistory T (routesOf (es1 ++ es2)) ->
  registered (p_net (mrun es1)) K nm (fst h) -> registered (p_net (mrun (es1 ++ es2))) K0 n0 (fst a) -> known (mrun es1) n h K -> alone (es1 ++ es2) n K ->
  exists later, sentAfter es1 es2 a n h = gotAfter es1 es2 a n h ++ later.
Proof.
  intros F RK RA KN AL. destruct (the_way es1 es2 h K nm K0 F RK) as [l W]. destruct (MJ_run es1 es2 a n h K nm K0 n0 F RK RA KN AL l W es2 [] ltac:(rewrite app_nil_r; reflexivity)) as (_ & H).
  rewrite <- H, map_app. eexists. reflexivity.
Qed.
(** when none of them is under way, the endpoint has been handed all of them *)
Theorem C50_nothing_is_lost es1 es2 a n h K nm K0 n0 : fairHistory T (routesOf (es1 ++ es2)) ->
  registered (p_net (mrun es1)) K nm (fst h) -> registered (p_net (mrun (es1 ++ es2))) K0 n0 (fst a) -> known (mrun es1) n h K -> alone (es1 ++ es2) n K ->
  arrivedAfter es1 es2 a n h -> gotAfter es1 es2 a n h = sentAfter es1 es2 a n h.
Proof.
  intros F RK RA KN AL A. destruct (the_way es1 es2 h K nm K0 F RK) as [l W]. destruct (MJ_run es1 es2 a n h K nm K0 n0 F RK RA KN AL l W es2 [] ltac:(rewrite app_nil_r; reflexivity)) as (_ & H).
  rewrite <- H, mcontent_empty; [rewrite app_nil_r; reflexivity|]. intros x y _. unfold mfl. specialize (A x y). revert A. generalize (p_links (mrun (es1 ++ es2)) x y). intros m A.
  induction m as [|e m IH]; [reflexivity|]. assert (IH' : filter (cls es1 a n h) (mailsIn m) = []) by (apply IH; intros m' I; apply A; right; exact I). destruct e as [n' h'|m']; [exact IH'|]. cbn [mailsIn flat_map app filter].
  replace (cls es1 a n h m') with false; [exact IH'|]. symmetry. unfold cls. destruct (Nat.leb_spec (p_count (mrun es1)) (k_seq m')) as [L|L]; [|apply andb_false_r]. rewrite andb_true_r. apply A; [left; reflexivity|exact L].
Qed.
(** ** the connections can always be served to the end *)
Definition isService (e : mevent) : Prop := exists x y, e = P_serve x y.
Lemma hop_other es x y g : fairHistory T (routesOf es) -> hopAt T (p_net (mrun es)) x g = Next y -> x <> y.
Proof.
  intros F H. pose proof (history_inv T _ F) as I. rewrite <- net_mrun in I. pose proof (proj1 F) as HT.
  assert (Q : t_parent T x = Some y \/ t_parent T y = Some x).
  { unfold hopAt in H. destruct (t_core T x).
    - left. destruct (t_parent T x) as [q|]; destruct ((g =? parentId) || _); try destruct (_ || _); congruence.
    - destruct (g =? _); [discriminate|]. destruct (_ =? parentRoute); [left; destruct (t_parent T x) as [q|]; congruence|]. destruct (lookup _ _) as [z|] eqn:L; [|discriminate]. injection H as ->. right. apply RouteInv.lookup_in in L. apply (proj1 (k_routes _ _ _ (i_nodes _ _ I x)) _ _ L). }
  intros ->. destruct Q as [Q|Q]; pose proof (parent_depth T HT _ _ Q); lia.
Qed.
Lemma does_links s y e u v : tree T -> (forall g z, hopAt T (p_net s) y g = Next z -> y <> z) -> u <> y \/ u = v -> p_links (does T y e s) u v = p_links s u v.
Proof.
  intros HT HO C. assert (PU : forall z l s', y <> z -> p_links (putOn y z l s') u v = p_links s' u v).
  { intros z l s' N. rewrite putOn_links, edge_neq, app_nil_r; [reflexivity|]. intros Q. injection Q as -> ->. destruct C; congruence. }
  assert (UP : forall e' s', p_links (up T y e' s') u v = p_links s' u v).
  { intros e' s'. unfold up. destruct (t_parent T y) as [q|] eqn:P; [|destruct e'; reflexivity]. apply PU. intros ->. pose proof (parent_depth T HT _ _ P). lia. }
  assert (RO : forall h m, p_links (route T y h m s) u v = p_links s u v).
  { intros h m. unfold route. destruct (hopAt T (p_net s) y (fst h)) as [|z|] eqn:H; [reflexivity| |reflexivity]. apply PU, (HO _ _ H). }
  unfold does. destruct (t_core T y).
  - unfold coreDoes. destruct e as [n h|m].
    + destruct (String.eqb n ""); [reflexivity|rewrite UP; reflexivity].
    + assert (HA : forall h, p_links (hand y h m s) u v = p_links s u v) by (intros h; unfold hand; destruct (localFed _ _); reflexivity). destruct (k_dest m) as [h|]; [destruct (hasHandle _ _); [apply HA|apply UP]|destruct (lookupName _ _) as [h|]; [apply HA|apply UP]].
  - unfold brokerDoes. destruct e as [n h|m].
    + destruct (lookupName _ _); [reflexivity|]. destruct (Nat.eqb y (t_root T)); [reflexivity|rewrite UP; reflexivity].
    + destruct (k_dest m) as [h|]; [apply RO|]. destruct (lookupName _ _) as [h|]; [apply RO|]. destruct (Nat.eqb y (t_root T)); [reflexivity|rewrite UP; reflexivity].
Qed.
Lemma routes_services es srv : Forall isService srv -> routesOf (es ++ srv) = routesOf es.
Proof. intros F. rewrite routesOf_app. replace (routesOf srv) with (@nil event); [apply app_nil_r|]. induction F as [|e l (x & y & ->) _ IH]; [reflexivity|exact IH]. Qed.
Lemma drainMail es x y : fairHistory T (routesOf es) -> exists srv, Forall isService srv /\ p_links (mrun (es ++ srv)) x y = [] /\ forall u v, u <> y -> (u, v) <> (x, y) -> p_links (mrun (es ++ srv)) u v = p_links (mrun es) u v.
Proof.
  remember (length (p_links (mrun es) x y)) as k eqn:LK. revert es LK. induction k as [|k IH]; intros es LK F.
  - exists []. rewrite app_nil_r. split; [constructor|]. destruct (p_links (mrun es) x y); [auto|discriminate].
  - destruct (p_links (mrun es) x y) as [|e r] eqn:D; [discriminate|]. assert (HO : forall g z, hopAt T (p_net (mrun es)) y g = Next z -> y <> z) by (intros g z; apply hop_other, F).
    assert (S : forall u v, u <> y \/ u = v -> p_links (mrun (es ++ [P_serve x y])) u v = if Nat.eqb u x && Nat.eqb v y then r else p_links (mrun es) u v).
    { intros u v C. rewrite mrun_snoc. cbn [Mail.mstep]. rewrite (attend_some _ _ _ _ _ _ D), (does_links (popped x y r (mrun es)) y e u v (proj1 F) HO C). reflexivity. }
    assert (SR : Forall isService [P_serve x y]) by (constructor; [eexists _, _; reflexivity|constructor]).
    destruct (IH (es ++ [P_serve x y])) as (srv & V & E & O).
    + rewrite S, !Nat.eqb_refl by (destruct (Nat.eq_dec x y); auto). cbn [andb]. cbn [length] in LK. lia.
    + rewrite (routes_services es _ SR). exact F.
    + exists (P_serve x y :: srv). rewrite <- app_assoc in E. cbn [app] in E. split; [constructor; [eexists _, _; reflexivity|exact V]|]. split; [exact E|].
      intros u w N1 N2. specialize (O u w N1 N2). rewrite <- app_assoc in O. cbn [app] in O. rewrite O, S by auto. rewrite (edge_neq _ _ _ _ N2). reflexivity.
Qed.
Lemma drainMail_way es E : fairHistory T (routesOf es) -> (forall a x y b, E = a ++ (x, y) :: b -> forall u v, In (u, v) a -> u <> y /\ (u, v) <> (x, y)) ->
  exists srv, Forall isService srv /\ forall x y, In (x, y) E -> p_links (mrun (es ++ srv)) x y = [].
Proof.
  intros F. induction E as [|(x & y) E IH] using rev_ind; intros H.
  - exists []. split; [constructor|intros x y []].
  - destruct IH as (srv & V & D); [intros a x0 y0 b Q; apply (H a x0 y0 (b ++ [(x, y)])); rewrite Q, <- app_assoc; reflexivity|].
    destruct (drainMail (es ++ srv) x y) as (srv' & V' & D' & O); [rewrite routes_services; assumption|]. exists (srv ++ srv'). rewrite app_assoc. split; [apply Forall_app; auto|].
    intros u v I. apply in_app_or in I as [I|[Q|[]]]; [|injection Q as <- <-; exact D']. destruct (H E x y [] eq_refl u v I) as [N1 N2]. rewrite O; auto.
Qed.
Lemma sent_services es1 es2 srv a n h : Forall isService srv -> sentAfter es1 (es2 ++ srv) a n h = sentAfter es1 es2 a n h.
Proof. intros F. induction srv as [|e l IH] using rev_ind; [rewrite app_nil_r; reflexivity|]. apply Forall_app in F as [F1 F2]. inversion F2 as [|? ? (x & y & ->) _]. subst. rewrite app_assoc, sentAfter_snoc, IH by exact F1. apply app_nil_r. Qed.
Lemma net_services es srv : Forall isService srv -> p_net (mrun (es ++ srv)) = p_net (mrun es).
Proof. intros F. rewrite !net_mrun, routes_services by exact F. reflexivity. Qed.
Lemma alone_services es srv n K : Forall isService srv -> alone es n K -> alone (es ++ srv) n K.
Proof.
  intros F AL e1 K' g e2 E. assert (Q : exists r, es = e1 ++ P_register K' g n :: r).
  { clear AL. revert e1 E. induction es as [|e es IH]; intros e1 E.
    - exfalso. rewrite Forall_forall in F. cbn [app] in E. destruct (F (P_register K' g n)) as (x & y & Q); [rewrite E; apply in_or_app; right; left; reflexivity|discriminate].
    - destruct e1 as [|e' e1]; cbn [app] in E; injection E as -> E; [exists es; reflexivity|]. destruct (IH e1 E) as [r ->]. exists r. reflexivity. }
  destruct Q as [r Q]. apply (AL e1 K' g r Q).
Qed.
(** whatever is under way, serving the connections delivers it: nothing gets stuck *)
Theorem C50_delivery_completes es1 es2 a n h K nm K0 n0 : fairHistory T (routesOf (es1 ++ es2)) ->
  registered (p_net (mrun es1)) K nm (fst h) -> registered (p_net (mrun (es1 ++ es2))) K0 n0 (fst a) -> known (mrun es1) n h K -> alone (es1 ++ es2) n K ->
  exists services, Forall isService services /\ gotAfter es1 (es2 ++ services) a n h = sentAfter es1 es2 a n h.
Proof.
  intros F RK RA KN AL. destruct (the_way es1 es2 h K nm K0 F RK) as [l W].
  destruct (drainMail_way (es1 ++ es2) ((K0, K0) :: l) F) as (srv & V & D).
  { intros u0 x y b E u v H. destruct u0 as [|q u0]; [destruct H|]. cbn [app] in E. injection E as <- E. pose proof (way_split _ _ _ _ _ _ _ _ W E) as [_ W2]. destruct (way_nodup _ _ _ _ W) as [N1 N2].
    assert (NY : y <> K0). { intros ->. apply N2. rewrite E, map_app. apply in_or_app. right. left. reflexivity. }
    destruct H as [Q|H]; [injection Q as <- <-; split; [auto|intros Q; injection Q as -> ->; apply NY; reflexivity]|]. apply in_split in H as (a1 & a2 & ->). split.
    - intros ->. rewrite <- app_assoc in E. cbn [app] in E. pose proof (way_split _ _ _ _ _ _ _ _ W E) as [H1 H2].
      assert (W1 : way (fun x => hopAt T (p_net (mrun es1)) x (fst h)) K y ((y, v) :: a2 ++ (x, y) :: b)) by (econstructor; eassumption).
      pose proof (way_det _ _ _ _ _ W1 W2) as Q. apply (f_equal (@length _)) in Q. cbn [length] in Q. rewrite app_length in Q. cbn [length] in Q. lia.
    - intros Q. rewrite Q in E. rewrite E in N1. apply NoDup_remove in N1 as [_ N1]. apply N1, in_or_app. left. apply in_or_app. right. left. reflexivity. }
  exists srv. split; [exact V|]. rewrite <- (sent_services es1 es2 srv a n h V).
  assert (F' : fairHistory T (routesOf (es1 ++ es2 ++ srv))) by (rewrite app_assoc, routes_services; assumption).
  assert (RA' : registered (p_net (mrun (es1 ++ es2 ++ srv))) K0 n0 (fst a)) by (rewrite app_assoc, net_services; assumption).
  assert (AL' : alone (es1 ++ es2 ++ srv) n K) by (rewrite app_assoc; apply alone_services; assumption).
  destruct (MJ_run es1 (es2 ++ srv) a n h K nm K0 n0 F' RK RA' KN AL' l W (es2 ++ srv) [] ltac:(rewrite app_nil_r; reflexivity)) as (_ & H).
  rewrite <- H, mcontent_empty; [rewrite app_nil_r; reflexivity|]. intros x y I. unfold mfl. rewrite app_assoc, (D x y I). reflexivity.
Qed.
End Flow.
