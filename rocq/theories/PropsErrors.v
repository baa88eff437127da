(** * C51: how far an error spreads *)
From Coq Require Import ZArith Bool List Lia.
From Verif Require Import Route RouteInv PropsRoute PropsDeliver RouteLive Errors.
Import ListNotations.
Open Scope Z_scope.

Section Spread.
Variable T : topology.
Variable kids : nat -> list nat.
Variable feds : nat -> list Z.
Variable nodeTerm : nat -> bool.
Variable fedTerm : Z -> bool.
Notation root := (t_root T).
Notation par := (t_parent T).
Notation xstep := (xstep T kids feds nodeTerm fedTerm).
Notation xrun := (xrun T kids feds nodeTerm fedTerm).
Notation does := (does T kids feds nodeTerm).
Notation attend := (attend T kids feds nodeTerm).
Notation tellFeds := (tellFeds feds).
Notation broadcast := (broadcast kids).
Notation up := (up T).
Hypothesis HT : tree T.
Hypothesis HK : forall x c, In c (kids x) -> par c = Some x.
Hypothesis HF : forall x g, In g (feds x) -> t_core T x = true.

Lemma xrun_snoc es e : xrun (es ++ [e]) = xstep (xrun es) e.
Proof. unfold Errors.xrun. rewrite fold_left_app. reflexivity. Qed.
Lemma at_core_in K g : at_core feds K g = true <-> In g (feds K).
Proof. unfold at_core. rewrite existsb_exists. split; [intros (a & I & E); apply Z.eqb_eq in E; subst; exact I|intros I; exists g; split; [exact I|apply Z.eqb_refl]]. Qed.

(** the error of a federate has reached it, or it has finished *)
Definition told (s : esys) (g : Z) : Prop := x_fed s g <> Running \/ x_box s g <> [].
Definition ownShape (x : nat) (e : err) : Prop := e_dst e = ParentC /\ ((exists g, e_src e = Fed g /\ In g (feds x)) \/ (e_src e = Node x /\ e_global e = true)).
Definition upShape (y : nat) (e : err) : Prop := (exists g, e_src e = Fed g) \/ (exists c, e_src e = Node c /\ (t_depth T y < t_depth T c)%nat).
Definition downShape (x y : nat) (e : err) : Prop := e_global e = true /\ e_dst e = Node y /\ (e_src e = Node x \/ e_src e = Node root).
Definition shape (x y : nat) (e : err) : Prop := (x = y /\ ownShape x e) \/ (par x = Some y /\ upShape y e) \/ (par y = Some x /\ downShape x y e).
Record Base (s : esys) : Prop := mkBase {
  b_link : forall x y e, In e (x_links s x y) -> shape x y e;
  b_box : forall g e, In e (x_box s g) -> e_dst e = ParentC;
  b_op : forall g, x_op s g = false -> told s g;
  b_own : forall K e g, In e (x_links s K K) -> e_src e = Fed g -> told s g;
  b_core : forall K g, t_core T K = true -> x_cast s K = true -> In g (feds K) -> told s g }.
Record ok (y : nat) (s s' : esys) : Prop := mkOk {
  o_link : forall a b, exists l, x_links s' a b = x_links s a b ++ l;
  o_cast : forall a, x_cast s a = true -> x_cast s' a = true;
  o_told : forall g, told s g -> told s' g;
  o_base : Base s -> Base s';
  o_new : forall a, x_cast s' a = true -> x_cast s a = true \/ (a = y /\ (t_core T y = true \/ forall c, In c (kids y) -> x_links s' y c <> []));
  o_state : forall a, a <> y -> x_state s' a = x_state s a }.
Lemma ok_refl y s : ok y s s.
Proof. constructor; auto. intros a b. exists []. rewrite app_nil_r. reflexivity. Qed.
Lemma grown_nonempty {A} (l l' m : list A) : l' = l ++ m -> l <> [] -> l' <> [].
Proof. intros -> N. destruct l; [congruence|discriminate]. Qed.
Lemma ok_trans y s1 s2 s3 : ok y s1 s2 -> ok y s2 s3 -> ok y s1 s3.
Proof.
  intros [A1 A2 A3 A4 A5 A6] [B1 B2 B3 B4 B5 B6]. constructor; auto.
  - intros a b. destruct (A1 a b) as [l E], (B1 a b) as [l' E']. exists (l ++ l'). rewrite E', E, app_assoc. reflexivity.
  - intros a C. destruct (B5 a C) as [C'|C']; [|right; exact C']. destruct (A5 a C') as [D|[D [E|E]]]; [left; exact D|right; split; auto|]. right. split; [exact D|]. right. intros c I. destruct (B1 y c) as [l Q]. apply (grown_nonempty _ _ _ Q), E, I.
  - intros a N. rewrite B6, A6 by exact N. reflexivity.
Qed.
Lemma ok_state y b s : ok y s (setState y b s).
Proof.
  constructor; auto; cbn; try (intros a b'; exists []; rewrite app_nil_r; reflexivity).
  - intros [B1 B2 B3 B4 B5]. constructor; assumption.
  - intros a N. apply Nat.eqb_neq in N. rewrite N. reflexivity.
Qed.
Lemma ok_error y s : ok y s (errorState y s).
Proof. unfold errorState. destruct (x_state s y); [apply ok_state|apply ok_refl|apply ok_refl]. Qed.
Lemma ok_marked y w s : (forall g, w = Fed g -> told s g) -> ok y s (marked w s).
Proof.
  intros H. destruct w as [g|x|]; [|apply ok_refl|apply ok_refl]. constructor; auto; cbn; try (intros a b'; exists []; rewrite app_nil_r; reflexivity).
  intros [B1 B2 B3 B4 B5]. constructor; try assumption. intros h. cbn. destruct (Z.eqb_spec h g) as [->|N]; [intros _; apply (H g eq_refl)|apply B3].
Qed.
Lemma tell_told K code s g : Base s -> In g (feds K) -> told (tellFeds K code s) g.
Proof.
  intros B I. unfold told. cbn. apply at_core_in in I. unfold at_core in I. rewrite I. cbn [andb]. destruct (x_op s g) eqn:O; [|apply (b_op _ B g O)]. right. destruct (x_box s g); discriminate.
Qed.
Lemma ok_tell y code s : t_core T y = true -> ok y s (tellFeds y code s).
Proof.
  intros C. assert (TM : forall g, told s g -> told (tellFeds y code s) g). { intros g [F|N]; [left; exact F|right]. cbn. destruct (existsb (Z.eqb g) (feds y) && x_op s g); [destruct (x_box s g); discriminate|exact N]. }
  constructor; auto.
  - intros a b. exists []. rewrite app_nil_r. reflexivity.
  - intros a D. cbn. destruct (Nat.eqb a y); auto.
  - intros B. pose proof B as [B1 B2 B3 B4 B5]. constructor; auto.
    + intros g e I. cbn in I. destruct (existsb (Z.eqb g) (feds y) && x_op s g); [|apply (B2 g e I)]. apply in_app_or in I as [I|[I|[]]]; [apply (B2 g e I)|subst e; reflexivity].
    + intros K e g I E. apply TM, (B4 K e g I E).
    + intros K g CK D I. cbn in D. destruct (Nat.eqb_spec K y) as [->|N]; [apply tell_told; assumption|apply TM, (B5 K g CK D I)].
  - intros a D. cbn in D. destruct (Nat.eqb_spec a y) as [Q|N]; [right; auto|left; exact D].
Qed.
Lemma not_self x p : par x = Some p -> p <> x.
Proof. intros P ->. pose proof (parent_depth T HT _ _ P). lia. Qed.
Lemma root_min x : (t_depth T root <= t_depth T x)%nat.
Proof. apply (below_depth T HT), (below_root T HT). Qed.
Lemma ok_put y p e s : par y = Some p -> upShape p e -> ok y s (putOn y p [e] s).
Proof.
  intros P U. constructor; auto.
  - intros a b. cbn. destruct (Nat.eqb a y && Nat.eqb b p); [exists [e]; reflexivity|exists []; rewrite app_nil_r; reflexivity].
  - intros [B1 B2 B3 B4 B5]. constructor; auto.
    + intros a b e' I. cbn in I. destruct (Nat.eqb a y && Nat.eqb b p) eqn:E; [|apply (B1 a b e' I)]. apply in_app_or in I as [I|[I|[]]]; [apply (B1 a b e' I)|subst e']. apply edge_eqb in E. injection E as -> ->. right. left. split; assumption.
    + intros K e' g I. cbn in I. destruct (Nat.eqb K y && Nat.eqb K p) eqn:E; [|apply (B4 K e' g I)]. apply edge_eqb in E. injection E as -> Q. exfalso. apply (not_self y p P). congruence.
Qed.
Lemma ok_up y e s : (forall p, par y = Some p -> upShape p e) -> ok y s (up y e s).
Proof. intros U. unfold Errors.up. destruct (par y) as [p|] eqn:P; [apply ok_put; auto|apply ok_refl]. Qed.
Lemma ok_cast y e s : t_core T y = false -> e_global e = true -> e_src e = Node y \/ e_src e = Node root -> ok y s (broadcast y e s).
Proof.
  intros C G S. constructor; auto.
  - intros a b. cbn. destruct (Nat.eqb a y); [eexists; reflexivity|exists []; rewrite app_nil_r; reflexivity].
  - intros a D. cbn. destruct (Nat.eqb a y); auto.
  - intros [B1 B2 B3 B4 B5]. constructor; auto.
    + intros a b e' I. cbn in I. destruct (Nat.eqb_spec a y) as [->|N]; [|apply (B1 a b e' I)]. apply in_app_or in I as [I|I]; [apply (B1 y b e' I)|]. apply in_map_iff in I as (c & <- & I). apply filter_In in I as [I Q]. apply Nat.eqb_eq in Q. subst c. right. right. split; [apply HK, I|]. repeat split; cbn; auto.
    + intros K e' g I. cbn in I. destruct (Nat.eqb_spec K y) as [->|N]; [|apply (B4 K e' g I)]. apply in_app_or in I as [I|I]; [apply (B4 y e' g I)|]. apply in_map_iff in I as (c & <- & I). apply filter_In in I as [I Q]. apply Nat.eqb_eq in Q. subst c. apply HK in I. exfalso. apply (not_self y y I eq_refl).
    + intros K g CK D. cbn in D. destruct (Nat.eqb_spec K y) as [->|N]; [congruence|apply (B5 K g CK D)].
  - intros a D. cbn in D. destruct (Nat.eqb_spec a y) as [Q|N]; [|left; exact D]. right. split; [exact Q|]. clear Q. right. intros c I. cbn. rewrite Nat.eqb_refl. intros Z. apply app_eq_nil in Z as [_ Z]. apply map_eq_nil in Z. assert (Q : In c (filter (Nat.eqb c) (kids y))) by (apply filter_In; split; [exact I|apply Nat.eqb_refl]). rewrite Z in Q. destruct Q.
Qed.

(** an error for everybody is on its way to the root, or the root has told the nodes below it *)
Definition Rat (c : nat) (s : esys) : Prop := exists p e, par c = Some p /\ In e (x_links s c p) /\ e_global e = true /\ e_dst e = Node root.
Definition R (s : esys) : Prop := x_cast s root = true \/ exists c, Rat c s.
Lemma Rat_ok y s s' c : ok y s s' -> Rat c s -> Rat c s'.
Proof. intros O (p & e & P & I & H). exists p, e. split; [exact P|]. split; [|exact H]. destruct (o_link _ _ _ O c p) as [l ->]. apply in_or_app. auto. Qed.
Lemma R_ok y s s' : ok y s s' -> R s -> R s'.
Proof. intros O [C|(c & H)]; [left; apply (o_cast _ _ _ O), C|]. right. exists c. apply (Rat_ok _ _ _ _ O H). Qed.
Lemma up_Rat y e s : y <> root -> e_global e = true -> e_dst e = Node root -> Rat y (up y e s).
Proof. intros N G D. destruct (has_parent T HT y N) as [p P]. exists p, e. split; [exact P|]. split; [|auto]. unfold Errors.up. rewrite P. cbn. rewrite !Nat.eqb_refl. cbn. apply in_or_app. right. left. reflexivity. Qed.
Lemma up_R y e s : y <> root -> e_global e = true -> e_dst e = Node root -> R (up y e s).
Proof. intros N G D. right. exists y. apply up_Rat; assumption. Qed.
Lemma core_not_root K : t_core T K = true -> K <> root.
Proof. intros C ->. destruct HT as (_ & Q & _). congruence. Qed.
Lemma up_shape_core K e : (exists g, e_src e = Fed g) \/ e_src e = Node K -> forall p, par K = Some p -> upShape p e.
Proof. intros [S|S] p P; [left; exact S|]. right. exists K. split; [exact S|]. rewrite (parent_depth T HT _ _ P). lia. Qed.
Lemma who_eqb_node x : who_eqb (Node x) (Node x) = true. Proof. apply Nat.eqb_refl. Qed.
Lemma node_neq x y : x <> y -> who_eqb (Node x) (Node y) = false. Proof. apply Nat.eqb_neq. Qed.

(** what a core does with an error of its own *)
Lemma core_own K e s : t_core T K = true -> Base s -> ownShape K e -> (forall g, e_src e = Fed g -> told s g) ->
  let s' := coreError T feds nodeTerm K e s in
  ok K s s' /\ (x_state s' K = Working -> x_state s K = Working) /\ (x_state s' K <> Working -> x_state s K <> Working \/ x_cast s' K = true) /\ (x_state s' K = Errored -> x_state s K = Errored \/ R s')
  /\ (e_global e = true -> x_state s K = Errored \/ forall p, par K = Some p -> In e (x_links s' K p))
  /\ (e_global e = false -> nodeTerm K = true -> R s').
Proof.
  intros C B (D & S) TG. pose proof (core_not_root K C) as NR. unfold coreError. destruct (e_global e) eqn:G.
  - assert (NB : isParent T K (e_src e) || who_eqb (e_src e) (Node root) = false).
    { unfold isParent. destruct S as [(g & -> & _)|[-> _]]; [destruct (par K); reflexivity|]. rewrite (node_neq K root NR). destruct (par K) as [p|] eqn:P; [|reflexivity]. rewrite (node_neq K p); [reflexivity|]. intros ->. apply (not_self p p P eq_refl). }
    rewrite NB. set (s1 := errorState K s).
    assert (SS : x_state s1 K = match x_state s K with Errored => Errored | _ => ConnError end) by (unfold s1, errorState; destruct (x_state s K) eqn:Q; [cbn; rewrite Nat.eqb_refl; reflexivity|exact Q|exact Q]).
    assert (UP : forall s2, x_state (up K e s2) = x_state s2) by (intros s2; unfold Errors.up; destruct (par K); reflexivity).
    cbv zeta. rewrite SS. destruct (x_state s K) eqn:Q.
    1,2: (split; [eapply ok_trans; [apply (ok_error K s)|]; eapply ok_trans; [apply (ok_tell K (e_code e) _ C)|]; apply ok_up; apply up_shape_core; destruct S as [(g & S & _)|[S _]]; eauto|];
      rewrite UP; change (x_state (tellFeds K (e_code e) s1) K) with (x_state s1 K); rewrite SS;
      split; [discriminate|]; split; [intros _; right; unfold Errors.up; destruct (par K); cbn; rewrite Nat.eqb_refl; reflexivity|]; split; [discriminate|]; split; [|discriminate]; intros _; right; intros p P; unfold Errors.up; rewrite P; cbn; rewrite !Nat.eqb_refl; cbn; apply in_or_app; right; left; reflexivity).
    split; [apply ok_error|]. split; [rewrite SS; discriminate|]. split; [left; congruence|]. split; [left; reflexivity|]. split; [left; reflexivity|discriminate].
  - destruct S as [(g & S & I)|[_ Q]]; [|congruence]. rewrite D. cbn [who_eqb]. destruct (nodeTerm K) eqn:N.
    + cbv zeta. set (s1 := match x_state s K with Errored => s | _ => setState K Errored (tellFeds K (e_code e) s) end).
      assert (O1 : ok K s s1) by (unfold s1; destruct (x_state s K); try apply ok_refl; (eapply ok_trans; [apply (ok_tell K (e_code e) s C)|apply ok_state])).
      assert (RR : R (up K (mkE true (Node K) (Node root) (e_code e)) s1)) by (apply up_R; auto).
      assert (UP : forall e2 s2, x_state (up K e2 s2) = x_state s2) by (intros e2 s2; unfold Errors.up; destruct (par K); reflexivity).
      split; [eapply ok_trans; [exact O1|]; apply ok_up, up_shape_core; right; reflexivity|]. rewrite UP.
      assert (SS : x_state s1 K = Errored) by (unfold s1; destruct (x_state s K) eqn:Q; [cbn; rewrite Nat.eqb_refl; reflexivity|cbn; rewrite Nat.eqb_refl; reflexivity|exact Q]).
      rewrite SS. split; [discriminate|]. split; [|split; [right; exact RR|split; [discriminate|intros _ _; exact RR]]]. intros _. destruct (x_state s K) eqn:Q; [|left; discriminate|left; discriminate].
      right. unfold s1. unfold Errors.up. destruct (par K); cbn; rewrite Nat.eqb_refl; reflexivity.
    + assert (UP : x_state (up K e (marked (e_src e) s)) = x_state s) by (unfold Errors.up; rewrite S; destruct (par K); reflexivity).
      split; [eapply ok_trans; [apply (ok_marked K (e_src e) s TG)|]; apply ok_up, up_shape_core; eauto|]. rewrite UP. split; [auto|]. split; [auto|]. split; [auto|]. split; discriminate.
Qed.
(** what a core does with an error from above *)
Lemma core_down K p e s : t_core T K = true -> par K = Some p -> downShape p K e ->
  let s' := coreError T feds nodeTerm K e s in
  ok K s s' /\ (x_state s' K = Errored -> x_state s K = Errored) /\ (x_state s K = Errored \/ x_cast s' K = true).
Proof.
  intros C P (G & D & S). unfold coreError. rewrite G.
  assert (NB : isParent T K (e_src e) || who_eqb (e_src e) (Node root) = true). { unfold isParent. rewrite P. destruct S as [-> | ->]; rewrite who_eqb_node; [reflexivity|apply orb_true_r]. }
  rewrite NB. set (s1 := errorState K s). cbv zeta.
  assert (SS : x_state s1 K = match x_state s K with Errored => Errored | _ => ConnError end) by (unfold s1, errorState; destruct (x_state s K) eqn:Q; [cbn; rewrite Nat.eqb_refl; reflexivity|exact Q|exact Q]).
  rewrite SS. destruct (x_state s K) eqn:Q.
  1,2: (split; [eapply ok_trans; [apply (ok_error K s)|apply (ok_tell K (e_code e) _ C)]|]; split; [change (x_state (tellFeds K (e_code e) s1) K) with (x_state s1 K); rewrite SS; discriminate|]; right; cbn; rewrite Nat.eqb_refl; reflexivity).
  split; [apply ok_error|]. split; [intros _; reflexivity|left; reflexivity].
Qed.
(** what a broker does *)
Lemma broker_does x y e s : t_core T y = false -> shape x y e ->
  let s' := brokerError T kids nodeTerm y e s in
  ok y s s' /\ (x = y \/ par y = Some x -> x_cast s' y = true)
  /\ (par x = Some y -> e_global e = true -> e_dst e = ParentC -> x_cast s' y = true)
  /\ (par x = Some y -> e_global e = true -> e_dst e = Node root -> x_cast s' root = true \/ Rat y s').
Proof.
  intros C SH. cbv zeta.
  assert (CB : forall e' s2, x_cast (broadcast y e' s2) y = true) by (intros e' s2; cbn; rewrite Nat.eqb_refl; reflexivity).
  assert (CU : forall e' s2, x_cast (up y e' s2) = x_cast s2) by (intros e' s2; unfold Errors.up; destruct (par y); reflexivity).
  assert (OS : forall b, ok y s (setState y b s)) by (intros b; apply ok_state).
  unfold brokerError. destruct SH as [(E & D & S)|[(P & U)|(P & G & D & S)]].
  - subst x. destruct S as [(g & _ & I)|[S G]]; [apply HF in I; congruence|]. rewrite S, who_eqb_node. split; [|split; [|split; intros P; exfalso; apply (not_self y y P eq_refl)]].
    + destruct (Nat.eqb_spec y root) as [->|N].
      * eapply ok_trans; [apply OS|apply ok_cast; auto].
      * eapply ok_trans; [apply OS|]. eapply ok_trans; [apply (ok_cast y e); auto|]. apply ok_up. intros p P. right. exists y. split; [reflexivity|]. rewrite (parent_depth T HT _ _ P). lia.
    + intros _. destruct (Nat.eqb y root); [|rewrite CU]; apply CB.
  - pose proof (parent_depth T HT _ _ P) as DP.
    assert (N1 : who_eqb (e_src e) (Node y) = false) by (destruct U as [(g & ->)|(c & -> & L)]; [reflexivity|]; apply node_neq; intros ->; lia).
    assert (N2 : who_eqb (e_src e) ParentC || who_eqb (e_src e) (Node root) = false) by (destruct U as [(g & ->)|(c & -> & L)]; [reflexivity|]; rewrite (node_neq c root); [reflexivity|]; intros ->; pose proof (root_min y); lia).
    rewrite N1, N2. assert (NX : ~ (x = y \/ par y = Some x)) by (intros [->|Q]; [lia|pose proof (parent_depth T HT _ _ Q); lia]).
    assert (OU : forall e' s2, e_src e' = e_src e -> ok y s2 (up y e' s2)). { intros e' s2 Q. apply ok_up. intros p Pp. unfold upShape. rewrite Q. pose proof (parent_depth T HT _ _ Pp). destruct U as [U|(c & U & L)]; [left; exact U|]. right. exists c. split; [exact U|lia]. }
    set (here := Nat.eqb y root || who_eqb (e_dst e) (Node y) || who_eqb (e_dst e) ParentC) in *. split; [|split; [intros Q; destruct (NX Q)|split]].
    + destruct (e_global e || nodeTerm y); destruct here; try apply ok_refl; try (apply OU; reflexivity).
      * eapply ok_trans; [apply ok_error|]. apply ok_cast; auto.
      * eapply ok_trans; [apply ok_error|]. apply OU. reflexivity.
    + intros _ -> D. unfold here. rewrite D, (orb_true_r (_ || _)). cbn [orb who_eqb]. apply CB.
    + intros _ -> D. cbn [orb]. destruct here eqn:H.
      * unfold here in H. rewrite D in H. cbn [who_eqb] in H. assert (y = root). { destruct (Nat.eqb_spec y root) as [Q|Q]; [exact Q|]. rewrite (proj2 (Nat.eqb_neq root y)) in H by congruence. discriminate. } left. subst y. apply CB.
      * right. apply up_Rat; auto. intros ->. unfold here in H. rewrite Nat.eqb_refl in H. discriminate.
  - assert (N1 : who_eqb (e_src e) (Node y) = false). { assert (NR : y <> root) by (intros ->; destruct HT as (Q & _); congruence). destruct S as [-> | ->]; apply node_neq; [|congruence]. intros ->. apply (not_self y y P eq_refl). }
    rewrite N1. split; [|split; [intros _|split; intros Q; exfalso; pose proof (parent_depth T HT _ _ P); pose proof (parent_depth T HT _ _ Q); lia]].
    + destruct (who_eqb (e_src e) ParentC || who_eqb (e_src e) (Node root)) eqn:Q.
      * eapply ok_trans; [apply OS|]. apply ok_cast; auto. right. destruct S as [S|S]; [|exact S]. rewrite S in *. cbn in Q. apply Nat.eqb_eq in Q. congruence.
      * rewrite G, D, who_eqb_node. rewrite orb_true_r. cbn [orb]. eapply ok_trans; [apply ok_error|]. apply ok_cast; auto.
    + destruct (who_eqb (e_src e) ParentC || who_eqb (e_src e) (Node root)) eqn:Q; [apply CB|]. rewrite G, D, who_eqb_node. rewrite orb_true_r. cbn [orb]. apply CB.
Qed.

(** ** the invariant *)
Definition popped (x y : nat) (r : list err) (s : esys) : esys := set_x_links (fun a b => if Nat.eqb a x && Nat.eqb b y then r else x_links s a b) s.
Lemma attend_none x y s : x_links s x y = [] -> attend x y s = s.
Proof. unfold Errors.attend. intros ->. reflexivity. Qed.
Lemma attend_some x y e r s : x_links s x y = e :: r -> attend x y s = does y e (popped x y r s).
Proof. unfold Errors.attend. intros ->. reflexivity. Qed.
Lemma popped_in x y e r s u v e' : x_links s x y = e :: r -> In e' (x_links (popped x y r s) u v) -> In e' (x_links s u v).
Proof. intros L. cbn. destruct (Nat.eqb u x && Nat.eqb v y) eqn:E; [|auto]. apply edge_eqb in E. injection E as -> ->. rewrite L. right. exact H. Qed.
Lemma popped_rest x y e r s u v e' : x_links s x y = e :: r -> In e' (x_links s u v) -> (u = x /\ v = y /\ e' = e) \/ In e' (x_links (popped x y r s) u v).
Proof. intros L I. cbn. destruct (Nat.eqb u x && Nat.eqb v y) eqn:E; [|auto]. apply edge_eqb in E. injection E as -> ->. rewrite L in I. destruct I as [I|I]; [left; auto|right; exact I]. Qed.
Lemma popped_base x y e r s : x_links s x y = e :: r -> Base s -> Base (popped x y r s).
Proof.
  intros L [B1 B2 B3 B4 B5]. constructor; auto.
  - intros u v e' I. apply B1, (popped_in _ _ _ _ _ _ _ _ L I).
  - intros K e' g I. apply (B4 K e' g), (popped_in _ _ _ _ _ _ _ _ L I).
Qed.
Record Inv (s : esys) : Prop := mkInv {
  i_base : Base s;
  i_kids : forall x c, t_core T x = false -> x_cast s x = true -> In c (kids x) -> x_cast s c = true \/ x_links s x c <> [];
  i_core : forall K, t_core T K = true -> (x_state s K <> Working -> x_cast s K = true) /\ (x_state s K = Errored -> R s) }.
(** an event which is not the work of a core or broker *)
Lemma inv_quiet y s s' : Inv s -> ok y s s' -> x_cast s' = x_cast s -> x_state s' = x_state s -> Inv s'.
Proof.
  intros [B K C] O QC QS. constructor; [apply (o_base _ _ _ O B)| |].
  - rewrite QC. intros x c CX CS I. destruct (K x c CX CS I) as [H|H]; [left; exact H|]. right. destruct (o_link _ _ _ O x c) as [l Q]. apply (grown_nonempty _ _ _ Q H).
  - rewrite QC, QS. intros k CK. destruct (C k CK) as [C1 C2]. split; [exact C1|]. intros E. apply (R_ok _ _ _ O), C2, E.
Qed.
Lemma ok_own y K e s : (forall g, e_src e = Fed g -> told s g) -> ownShape K e -> ok y s (putOn K K [e] s).
Proof.
  intros TG SH. constructor; auto.
  - intros a b. cbn. destruct (Nat.eqb a K && Nat.eqb b K); [exists [e]; reflexivity|exists []; rewrite app_nil_r; reflexivity].
  - intros [B1 B2 B3 B4 B5]. constructor; auto.
    + intros a b e' I. cbn in I. destruct (Nat.eqb a K && Nat.eqb b K) eqn:E; [|apply (B1 a b e' I)]. apply in_app_or in I as [I|[I|[]]]; [apply (B1 a b e' I)|subst e']. apply edge_eqb in E. injection E as -> ->. left. split; [reflexivity|exact SH].
    + intros k e' g I S. cbn in I. destruct (Nat.eqb k K && Nat.eqb k K) eqn:E; [|apply (B4 k e' g I S)]. apply in_app_or in I as [I|[I|[]]]; [apply (B4 k e' g I S)|subst e'; apply (TG g S)].
Qed.
Lemma ok_boxed y g e s : e_dst e = ParentC -> ok y s (boxed g e s) /\ told (boxed g e s) g.
Proof.
  intros D. assert (TM : forall h, told s h -> told (boxed g e s) h). { intros h [F|N]; [left; exact F|right]. cbn. destruct (Z.eqb h g); [destruct (x_box s h); discriminate|exact N]. }
  split; [|right; cbn; rewrite Z.eqb_refl; destruct (x_box s g); discriminate]. constructor; auto.
  - intros a b. exists []. rewrite app_nil_r. reflexivity.
  - intros [B1 B2 B3 B4 B5]. constructor; auto.
    + intros h e' I. cbn in I. destruct (Z.eqb h g); [|apply (B2 h e' I)]. apply in_app_or in I as [I|[I|[]]]; [apply (B2 h e' I)|subst e'; exact D].
    + intros K e' h I S. apply TM, (B4 K e' h I S).
    + intros K h CK C I. apply TM, (B5 K h CK C I).
Qed.
(** putting a command first on the queue of the core and then in that of the federate is the same the other way round *)
Lemma raise_ok y K g b code s : In g (feds K) -> ok y s (boxed g (mkE b (Fed g) ParentC code) (putOn K K [mkE b (Fed g) ParentC code] s)).
Proof.
  intros I. change (boxed g ?e (putOn K K [?e] s)) with (putOn K K [e] (boxed g e s)). destruct (ok_boxed y g (mkE b (Fed g) ParentC code) s eq_refl) as [O TB].
  eapply ok_trans; [exact O|]. apply ok_own; [intros h Q; injection Q as <-; exact TB|]. split; [reflexivity|]. left. exists g. split; [reflexivity|exact I].
Qed.
Lemma ok_same y s s' : x_links s' = x_links s -> x_cast s' = x_cast s -> x_state s' = x_state s -> x_op s' = x_op s -> (forall g e, In e (x_box s' g) -> In e (x_box s g)) -> (forall g, told s g -> told s' g) -> ok y s s'.
Proof.
  intros L C S O B TM. constructor; auto; try rewrite L; try rewrite C; try rewrite S; auto.
  - intros a b. exists []. rewrite app_nil_r. reflexivity.
  - intros [B1 B2 B3 B4 B5]. constructor; rewrite ?L, ?C, ?O; auto; [intros g e I; apply (B2 g e), B, I|intros K e g I Q; apply TM, (B4 K e g I Q)|intros K g CK Q I; apply TM, (B5 K g CK Q I)].
Qed.
Lemma takes_ok y K g s : Base s -> In g (feds K) -> ok y s (fedTakes T fedTerm K g s) /\ (x_box s g <> [] -> x_fed (fedTakes T fedTerm K g s) g <> Running).
Proof.
  intros B IK. unfold fedTakes. destruct (x_box s g) as [|e r] eqn:L; [split; [apply ok_refl|congruence]|]. cbv zeta.
  set (s0 := set_x_box (fun a => if Z.eqb a g then r else x_box s a) s).
  assert (IB : forall h e', In e' (x_box s0 h) -> In e' (x_box s h)) by (intros h e'; cbn; destruct (Z.eqb_spec h g) as [->|N]; [rewrite L; intros I; right; exact I|auto]).
  change (x_fed s0 g) with (x_fed s g). destruct (x_fed s g) eqn:F.
  - assert (D : e_dst e = ParentC) by (apply (b_box _ B g); rewrite L; left; reflexivity). rewrite D. cbn [who_eqb negb]. rewrite orb_true_r.
    set (s1 := set_x_fed (fun a => if Z.eqb a g then InError else x_fed s0 a) s0).
    assert (FG : x_fed s1 g = InError) by (cbn; rewrite Z.eqb_refl; reflexivity).
    assert (O : ok y s s1). { apply ok_same; try reflexivity; [exact IB|]. intros h. unfold told. cbn. destruct (Z.eqb_spec h g) as [->|N]; [intros _; left; discriminate|auto]. }
    destruct (e_global e); [split; [exact O|intros _; rewrite FG; discriminate]|]. split; [|intros _; change (x_fed s1 g <> Running); rewrite FG; discriminate]. eapply ok_trans; [exact O|]. apply ok_own; [|split; [reflexivity|left; exists g; split; [reflexivity|exact IK]]].
    intros h Q. injection Q as <-. left. rewrite FG. discriminate.
  - split; [|intros _; cbn; rewrite F; discriminate]. apply ok_same; try reflexivity; [exact IB|]. intros h. unfold told. cbn. destruct (Z.eqb_spec h g) as [->|N]; [intros _; left; congruence|auto].
  - split; [|intros _; cbn; rewrite F; discriminate]. apply ok_same; try reflexivity; [exact IB|]. intros h. unfold told. cbn. destruct (Z.eqb_spec h g) as [->|N]; [intros _; left; congruence|auto].
Qed.
Lemma takes_same K g s : x_cast (fedTakes T fedTerm K g s) = x_cast s /\ x_state (fedTakes T fedTerm K g s) = x_state s.
Proof. unfold fedTakes. destruct (x_box s g); [auto|]. cbv zeta. cbn [x_fed set_x_box]. destruct (x_fed s g); [|auto|auto]. match goal with |- context [if ?b then _ else _] => destruct b end; [|auto]. destruct (e_global e); auto. Qed.
Definition isServe (e : xevent) : bool := match e with X_serve _ _ => true | _ => false end.
Lemma other_ok y s e : Base s -> isServe e = false -> ok y s (xstep s e) /\ x_cast (xstep s e) = x_cast s /\ x_state (xstep s e) = x_state s.
Proof.
  intros B. destruct e as [K g code|K g code|x code|g|g|x y'|K g]; cbn [isServe Errors.xstep]; intros NS; try discriminate.
  - destruct (at_core feds K g) eqn:A; [|split; [apply ok_refl|auto]]. apply at_core_in in A. split; [apply raise_ok, A|auto].
  - destruct (at_core feds K g) eqn:A; [|split; [apply ok_refl|auto]]. apply at_core_in in A. split; [apply raise_ok, A|auto].
  - split; [|auto]. apply ok_own; [discriminate|]. split; [reflexivity|]. right. auto.
  - destruct (x_fed s g) eqn:F; try (split; [apply ok_refl|auto]). split; [|auto]. apply ok_same; try reflexivity; [auto|]. intros h. unfold told. cbn. destruct (Z.eqb h g); [left; discriminate|auto].
  - destruct (x_fed s g) eqn:F; try (split; [apply ok_refl|auto]). split; [|auto]. apply ok_marked. intros h Q. injection Q as <-. left. congruence.
  - destruct (at_core feds K g) eqn:A; [|split; [apply ok_refl|auto]]. apply at_core_in in A. split; [apply takes_ok; assumption|apply takes_same].
Qed.

(** ** what the work of a core or broker preserves *)
Record served (x y : nat) (e : err) (s s' : esys) : Prop := mkServed {
  v_inv : Inv s';
  v_root : R s -> R s';
  v_rise : par x = Some y -> e_global e = true -> e_dst e = Node root -> x_cast s' root = true \/ Rat y s';
  v_told : forall g, told s g -> told s' g;
  v_cast : forall a, x_cast s a = true -> x_cast s' a = true;
  v_down : par y = Some x \/ (x = y /\ t_core T y = false) -> x_cast s' y = true;
  v_up : par x = Some y -> e_global e = true -> e_dst e = ParentC -> x_cast s' y = true;
  v_global : x = y -> t_core T y = true -> e_global e = true -> (forall p, par y = Some p -> In e (x_links s' y p)) \/ R s';
  v_local : x = y -> t_core T y = true -> e_global e = false -> nodeTerm y = true -> R s' }.
Lemma serve_ok x y e r s : Inv s -> x_links s x y = e :: r -> ok y (popped x y r s) (does y e (popped x y r s)) /\ served x y e s (does y e (popped x y r s)).
Proof.
  intros [B K C] L. set (s0 := popped x y r s). set (s' := does y e s0).
  assert (SH : shape x y e) by (apply (b_link _ B); rewrite L; left; reflexivity).
  assert (B0 : Base s0) by (apply (popped_base _ _ _ _ _ L B)).
  assert (TG : x = y -> forall g, e_src e = Fed g -> told s0 g). { intros -> g Q. apply (b_own _ B y e g); [rewrite L; left; reflexivity|exact Q]. }
  (* the two kinds of nodes *)
  assert (MAIN : (par x = Some y -> e_global e = true -> e_dst e = Node root -> x_cast s' root = true \/ Rat y s') /\ ok y s0 s' /\ (R s -> R s') /\ (par y = Some x \/ (x = y /\ t_core T y = false) -> x_cast s' y = true)
    /\ (par x = Some y -> e_global e = true -> e_dst e = ParentC -> x_cast s' y = true)
    /\ (x = y -> t_core T y = true -> e_global e = true -> (forall p, par y = Some p -> In e (x_links s' y p)) \/ R s')
    /\ (x = y -> t_core T y = true -> e_global e = false -> nodeTerm y = true -> R s')
    /\ (t_core T y = true -> (x_state s' y <> Working -> x_cast s' y = true) /\ (x_state s' y = Errored -> R s'))).
  { assert (RG : ok y s0 s' -> (par x = Some y -> e_global e = true -> e_dst e = Node root -> R s') -> R s -> R s').
    { intros O H [Q|(c & p & e' & P & I & G & D)]; [left; apply (o_cast _ _ _ O), Q|]. destruct (popped_rest _ _ _ _ _ _ _ _ L I) as [(-> & -> & ->)|I']; [apply H; assumption|]. apply (R_ok _ _ _ O). right. exists c, p, e'. auto. }
    assert (RQ : x_cast s' root = true \/ Rat y s' -> R s') by (intros [Q|Q]; [left; exact Q|right; exists y; exact Q]).
    unfold s', Errors.does in *. destruct (t_core T y) eqn:CY.
    - assert (PX : forall z, par z = Some y -> False) by (intros z P; destruct HT as (_ & _ & _ & Q); destruct (Q z y P) as [Q' _]; congruence).
      destruct (C y CY) as [C1 C2]. destruct SH as [(E & O)|[(P & _)|(P & D)]]; [| destruct (PX x P)|].
      + subst x. destruct (core_own y e s0 CY B0 O (TG eq_refl)) as (O1 & _ & S1 & S2 & S3 & S4). change (x_state s0 y) with (x_state s y) in *.
        assert (RS : R s -> R (coreError T feds nodeTerm y e s0)) by (apply (RG O1); intros P; destruct (PX _ P)).
        refine (conj _ (conj O1 (conj RS (conj _ (conj _ (conj _ (conj _ (fun _ => conj _ _)))))))); auto.
        * intros P. destruct (PX _ P).
        * intros [P|[_ Q]]; [destruct (PX _ P)|discriminate].
        * intros P. destruct (PX _ P).
        * intros _ _ G. destruct (S3 G) as [H|H]; [right; apply RS, C2, H|left; exact H].
        * intros H. destruct (S1 H) as [H'|H']; [|exact H']. apply (o_cast _ _ _ O1), C1, H'.
        * intros H. destruct (S2 H) as [H'|H']; [|exact H']. apply RS, C2, H'.
      + destruct (core_down y x e s0 CY P D) as (O1 & S1 & S2). change (x_state s0 y) with (x_state s y) in *.
        assert (RS : R s -> R (coreError T feds nodeTerm y e s0)) by (apply (RG O1); intros Q; destruct (PX _ Q)).
        assert (CC : x_cast (coreError T feds nodeTerm y e s0) y = true). { destruct S2 as [H|H]; [|exact H]. apply (o_cast _ _ _ O1), C1. rewrite H. discriminate. }
        assert (NE : x <> y) by (intros ->; apply (not_self y y P eq_refl)).
        refine (conj _ (conj O1 (conj RS (conj (fun _ => CC) (conj (fun _ _ _ => CC) (conj _ (conj _ (fun _ => conj (fun _ => CC) _)))))))); try (intros Q; destruct (NE Q)); [intros Q; destruct (PX _ Q)|]. intros H. apply RS, C2, S1, H.
    - destruct (broker_does x y e s0 CY SH) as (O1 & S1 & S2 & S3). refine (conj S3 (conj O1 (conj (RG O1 (fun a b c => RQ (S3 a b c))) (conj _ (conj S2 (conj _ (conj _ _))))))); try (intros; discriminate). intros [P|[E _]]; apply S1; auto. }
  destruct MAIN as (M0 & O & M1 & M2 & M3 & M4 & M5 & M6). split; [exact O|]. constructor; auto.
  - constructor; [apply (o_base _ _ _ O B0)| |].
    + intros a c CA CS I. destruct (o_new _ _ _ O a CS) as [CS0|[-> [Q|H]]]; [|congruence|right; apply H, I].
      destruct (K a c CA CS0 I) as [H|H]; [left; apply (o_cast _ _ _ O), H|]. destruct (edge_dec (a, c) (x, y)) as [E|E].
      * injection E as -> ->. left. apply M2. left. apply HK, I.
      * right. destruct (o_link _ _ _ O a c) as [l Q]. apply (grown_nonempty _ _ _ Q). cbn. rewrite (edge_neq _ _ _ _ E). exact H.
    + intros k CK. destruct (Nat.eq_dec k y) as [->|N]; [apply M6, CK|]. destruct (C k CK) as [C1 C2]. rewrite (o_state _ _ _ O k N). split; [|intros H; apply M1, C2, H]. intros H. apply (o_cast _ _ _ O), C1, H.
  - intros g H. apply (o_told _ _ _ O), H.
  - intros a H. apply (o_cast _ _ _ O), H.
Qed.
Lemma inv0 : Inv esys0.
Proof.
  constructor; [constructor|..]; cbn; try (intros; discriminate); try (intros; contradiction). intros K C. split; [congruence|discriminate].
Qed.
Lemma inv_step s e : Inv s -> Inv (xstep s e).
Proof.
  intros I. destruct (isServe e) eqn:S.
  - destruct e as [K0 g0 c0|K0 g0 c0|x0 c0|g0|g0|x y|K0 g0]; try discriminate. cbn [Errors.xstep]. destruct (x_links s x y) as [|e r] eqn:L; [rewrite (attend_none _ _ _ L); exact I|]. rewrite (attend_some _ _ _ _ _ L). apply (v_inv _ _ _ _ _ (proj2 (serve_ok x y e r s I L))).
  - destruct (other_ok 0%nat s e (i_base _ I) S) as (O & Q1 & Q2). apply (inv_quiet 0%nat s); assumption.
Qed.
Lemma inv_run es : Inv (xrun es).
Proof. induction es as [|e es IH] using rev_ind; [exact inv0|]. rewrite xrun_snoc. apply inv_step, IH. Qed.

(** ** what has been raised *)
Definition afoot (s : esys) (K p : nat) : Prop := (exists e, In e (x_links s K K) /\ e_global e = true) \/ (exists e, In e (x_links s K p) /\ e_global e = true /\ e_dst e = ParentC) \/ x_cast s p = true \/ R s.
Lemma afoot_ok y s s' K p : ok y s s' -> afoot s K p -> afoot s' K p.
Proof.
  intros O [(e & I & H)|[(e & I & H)|[H|H]]]; [left|right; left|right; right; left; apply (o_cast _ _ _ O), H|right; right; right; apply (R_ok _ _ _ O H)]; exists e; (split; [|exact H]).
  - destruct (o_link _ _ _ O K K) as [l ->]. apply in_or_app. auto.
  - destruct (o_link _ _ _ O K p) as [l ->]. apply in_or_app. auto.
Qed.
Lemma afoot_step s e K p : t_core T K = true -> par K = Some p -> Inv s -> afoot s K p -> afoot (xstep s e) K p.
Proof.
  intros CK P I A. destruct (isServe e) eqn:S.
  2:{ destruct (other_ok 0%nat s e (i_base _ I) S) as (O & _). apply (afoot_ok 0%nat s _ K p O A). }
  destruct e as [K0 g0 c0|K0 g0 c0|x0 c0|g0|g0|x y|K0 g0]; try discriminate. cbn [Errors.xstep]. destruct (x_links s x y) as [|e r] eqn:L; [rewrite (attend_none _ _ _ L); exact A|]. rewrite (attend_some _ _ _ _ _ L).
  destruct (serve_ok x y e r s I L) as [O V]. set (s0 := popped x y r s) in *. destruct A as [(e' & I' & H)|[(e' & I' & H & D)|[H|H]]].
  - destruct (popped_rest _ _ _ _ _ _ _ _ L I') as [(E1 & E2 & ->)|I0]; [|apply (afoot_ok y s0 _ K p O); left; eauto].
    assert (SH : shape x y e) by (apply (b_link _ (i_base _ I)); rewrite L; left; reflexivity).
    destruct (v_global _ _ _ _ _ V) as [Q|Q]; [congruence|congruence|exact H| |right; right; right; exact Q]. right. left. exists e. subst x. rewrite <- E2 in Q. rewrite <- E2. split; [rewrite E2; rewrite E2 in Q; apply Q; congruence|]. split; [exact H|].
    destruct SH as [(_ & SH & _)|[(Q' & _)|(Q' & _)]]; [exact SH| |]; exfalso; rewrite <- E2 in Q'; apply (not_self _ _ Q' eq_refl).
  - destruct (popped_rest _ _ _ _ _ _ _ _ L I') as [(E1 & E2 & ->)|I0]; [|apply (afoot_ok y s0 _ K p O); right; left; eauto].
    right. right. left. rewrite E2. apply (v_up _ _ _ _ _ V); [congruence|exact H|exact D].
  - right. right. left. apply (v_cast _ _ _ _ _ V), H.
  - right. right. right. apply (v_root _ _ _ _ _ V), H.
Qed.
Definition afootB (s : esys) (x : nat) : Prop := x_links s x x <> [] \/ x_cast s x = true.
Lemma afootB_step s e x : t_core T x = false -> Inv s -> afootB s x -> afootB (xstep s e) x.
Proof.
  intros CX I A. destruct (isServe e) eqn:S.
  2:{ destruct (other_ok 0%nat s e (i_base _ I) S) as (O & _). destruct A as [A|A]; [left|right; apply (o_cast _ _ _ O), A]. destruct (o_link _ _ _ O x x) as [l Q]. apply (grown_nonempty _ _ _ Q A). }
  destruct e as [K0 g0 c0|K0 g0 c0|x0 c0|g0|g0|u y|K0 g0]; try discriminate. cbn [Errors.xstep]. destruct (x_links s u y) as [|e r] eqn:L; [rewrite (attend_none _ _ _ L); exact A|]. rewrite (attend_some _ _ _ _ _ L).
  destruct (serve_ok u y e r s I L) as [O V]. destruct A as [A|A]; [|right; apply (v_cast _ _ _ _ _ V), A]. destruct (edge_dec (x, x) (u, y)) as [E|E].
  - injection E as E1 E2. subst u y. right. apply (v_down _ _ _ _ _ V). right. auto.
  - left. destruct (o_link _ _ _ O x x) as [l Q]. apply (grown_nonempty _ _ _ Q). cbn. rewrite (edge_neq _ _ _ _ E). exact A.
Qed.
Definition afootE (s : esys) (K : nat) : Prop := (exists e, In e (x_links s K K) /\ e_global e = false) \/ R s.
Lemma afootE_step s e K : t_core T K = true -> nodeTerm K = true -> Inv s -> afootE s K -> afootE (xstep s e) K.
Proof.
  intros CK NT I A.
  assert (OKC : forall y s1 s2, ok y s1 s2 -> afootE s1 K -> afootE s2 K). { intros y s1 s2 O [(e' & I' & H)|H]; [left; exists e'; split; [|exact H]; destruct (o_link _ _ _ O K K) as [l ->]; apply in_or_app; auto|right; apply (R_ok _ _ _ O H)]. }
  destruct (isServe e) eqn:S.
  2:{ destruct (other_ok 0%nat s e (i_base _ I) S) as (O & _). apply (OKC _ _ _ O A). }
  destruct e as [K0 g0 c0|K0 g0 c0|x0 c0|g0|g0|x y|K0 g0]; try discriminate. cbn [Errors.xstep]. destruct (x_links s x y) as [|e r] eqn:L; [rewrite (attend_none _ _ _ L); exact A|]. rewrite (attend_some _ _ _ _ _ L).
  destruct (serve_ok x y e r s I L) as [O V]. destruct A as [(e' & I' & H)|H]; [|right; apply (v_root _ _ _ _ _ V), H].
  destruct (popped_rest _ _ _ _ _ _ _ _ L I') as [(E1 & E2 & ->)|I0]; [|apply (OKC _ _ _ O); left; eauto]. right. apply (v_local _ _ _ _ _ V); congruence.
Qed.

(** ** at rest *)
(** [joined x y]: y is x, or is connected to a broker which is joined to x *)
Inductive joined (x : nat) : nat -> Prop :=
| joined_refl : joined x x
| joined_up y p : In y (kids p) -> joined x p -> joined x y.
Lemma joined_below x y : joined x y -> below T x y.
Proof. induction 1 as [|y p P B IH]; [constructor|]. apply (below_up T x y p (HK _ _ P) IH). Qed.
Lemma joined_trans x y z : joined x y -> joined y z -> joined x z.
Proof. intros A. induction 1 as [|z p P B IH]; [exact A|]. apply (joined_up x z p P IH). Qed.
(** no error is on its way and no federate has one to look at *)
Definition atRest (s : esys) : Prop := (forall x y, x_links s x y = []) /\ forall K g, In g (feds K) -> x_box s g = [].
Lemma rest_below s x y : Inv s -> atRest s -> joined x y -> x_cast s x = true -> t_core T x = false \/ y = x -> x_cast s y = true.
Proof.
  intros I [Q _] B C CX. induction B as [|y p P B IH]; [exact C|]. assert (CP : x_cast s p = true) by (destruct CX as [CX| ->]; [apply IH; auto|exfalso; pose proof (below_depth T HT _ _ (joined_below _ _ B)); pose proof (parent_depth T HT _ _ (HK _ _ P)); lia]).
  destruct (i_kids _ I p y) as [H|H]; [destruct HT as (_ & _ & _ & Z); apply (Z y p (HK _ _ P))|exact CP|exact P|exact H|destruct (H (Q p y))].
Qed.
Lemma rest_all s x K g : Inv s -> atRest s -> t_core T x = false -> joined x K -> x_cast s x = true -> In g (feds K) -> x_fed s g <> Running.
Proof.
  intros I Q CX B C IG. assert (CK : x_cast s K = true) by (apply (rest_below s x K); auto). destruct (b_core _ (i_base _ I) K g (HF K g IG) CK IG) as [H|H]; [exact H|]. destruct Q as [_ Q]. destruct (H (Q K g IG)).
Qed.
Lemma rest_R s : atRest s -> R s -> x_cast s root = true.
Proof. intros [Q _] [H|(c & p & e & _ & I & _)]; [exact H|]. rewrite Q in I. destruct I. Qed.
Lemma root_broker : t_core T root = false. Proof. apply HT. Qed.
Lemma run_keeps (P : esys -> Prop) es1 e es2 : (forall s e', Inv s -> P s -> P (xstep s e')) -> P (xstep (xrun es1) e) -> P (xrun (es1 ++ e :: es2)).
Proof.
  intros H P0. induction es2 as [|e2 es2 IH] using rev_ind; [rewrite xrun_snoc; exact P0|]. rewrite app_comm_cons, app_assoc, xrun_snoc. apply H; [apply inv_run|exact IH].
Qed.

(** every federate below a broker to which the error of a federate goes stops running *)
Theorem C51_global_error_reaches_below es1 es2 K g code p K' g' :
  par K = Some p -> In g (feds K) -> joined root p -> joined p K' -> In g' (feds K') ->
  atRest (xrun (es1 ++ X_global K g code :: es2)) -> x_fed (xrun (es1 ++ X_global K g code :: es2)) g' <> Running.
Proof.
  intros P IG J0 B IG' Q. pose proof (joined_trans _ _ _ J0 B) as J. set (s := xrun _) in *. pose proof (HF K g IG) as CK. assert (CP : t_core T p = false) by (destruct HT as (_ & _ & _ & Z); apply (Z K p P)).
  assert (I : Inv s) by apply inv_run. assert (A : afoot s K p).
  { apply (run_keeps (fun s => afoot s K p)); [intros s1 e' I1; apply afoot_step; assumption|]. left. exists (mkE true (Fed g) ParentC code). split; [|reflexivity]. cbn [Errors.xstep]. rewrite (proj2 (at_core_in K g) IG). cbn. rewrite !Nat.eqb_refl. cbn. apply in_or_app. right. left. reflexivity. }
  assert (RB : R s -> x_fed s g' <> Running) by (intros H; apply (rest_all s root K' g' I Q root_broker J (rest_R s Q H) IG')).
  destruct A as [(e & H & _)|[(e & H & _)|[H|H]]]; [rewrite (proj1 Q) in H; destruct H|rewrite (proj1 Q) in H; destruct H| |apply RB, H]. apply (rest_all s p K' g' I Q CP B H IG').
Qed.
(** so does every federate when the core is connected to the root broker *)
Theorem C51_global_error_reaches_all es1 es2 K g code K' g' :
  par K = Some root -> In g (feds K) -> joined root K' -> In g' (feds K') ->
  atRest (xrun (es1 ++ X_global K g code :: es2)) -> x_fed (xrun (es1 ++ X_global K g code :: es2)) g' <> Running.
Proof. intros P IG J IG' Q. apply (C51_global_error_reaches_below es1 es2 K g code root K' g' P IG (joined_refl root) J IG' Q). Qed.
(** an error of a core itself goes as far as one of its federates *)
Theorem C51_core_error_reaches_below es1 es2 K code p K' g' :
  t_core T K = true -> par K = Some p -> joined root p -> joined p K' -> In g' (feds K') ->
  atRest (xrun (es1 ++ X_node K code :: es2)) -> x_fed (xrun (es1 ++ X_node K code :: es2)) g' <> Running.
Proof.
  intros CK P J0 B IG' Q. pose proof (joined_trans _ _ _ J0 B) as J. set (s := xrun _) in *. assert (CP : t_core T p = false) by (destruct HT as (_ & _ & _ & Z); apply (Z K p P)).
  assert (I : Inv s) by apply inv_run. assert (A : afoot s K p).
  { apply (run_keeps (fun s => afoot s K p)); [intros s1 e' I1; apply afoot_step; assumption|]. left. exists (mkE true (Node K) ParentC code). split; [|reflexivity]. cbn. rewrite !Nat.eqb_refl. cbn. apply in_or_app. right. left. reflexivity. }
  destruct A as [(e & H & _)|[(e & H & _)|[H|H]]]; [rewrite (proj1 Q) in H; destruct H|rewrite (proj1 Q) in H; destruct H|apply (rest_all s p K' g' I Q CP B H IG')|].
  apply (rest_all s root K' g' I Q root_broker J (rest_R s Q H) IG').
Qed.
(** an error of a broker stops every federate below it *)
Theorem C51_broker_error_reaches_below es1 es2 x code K' g' :
  t_core T x = false -> joined x K' -> In g' (feds K') ->
  atRest (xrun (es1 ++ X_node x code :: es2)) -> x_fed (xrun (es1 ++ X_node x code :: es2)) g' <> Running.
Proof.
  intros CX B IG' Q. set (s := xrun _) in *. assert (I : Inv s) by apply inv_run. assert (A : afootB s x).
  { apply (run_keeps (fun s => afootB s x)); [intros s1 e' I1; apply afootB_step; assumption|]. left. cbn. rewrite !Nat.eqb_refl. cbn. destruct (x_links _ x x); discriminate. }
  destruct A as [H|H]; [destruct (H (proj1 Q x x))|apply (rest_all s x K' g' I Q CX B H IG')].
Qed.
(** a local error at a core which terminates on errors stops every federate of the federation *)
Theorem C51_escalated_error_reaches_all es1 es2 K g code K' g' :
  nodeTerm K = true -> In g (feds K) -> joined root K' -> In g' (feds K') ->
  atRest (xrun (es1 ++ X_local K g code :: es2)) -> x_fed (xrun (es1 ++ X_local K g code :: es2)) g' <> Running.
Proof.
  intros NT IG J IG' Q. set (s := xrun _) in *. pose proof (HF K g IG) as CK. assert (I : Inv s) by apply inv_run. assert (A : afootE s K).
  { apply (run_keeps (fun s => afootE s K)); [intros s1 e' I1; apply afootE_step; assumption|]. left. exists (mkE false (Fed g) ParentC code). split; [|reflexivity]. cbn [Errors.xstep]. rewrite (proj2 (at_core_in K g) IG). cbn. rewrite !Nat.eqb_refl. cbn. apply in_or_app. right. left. reflexivity. }
  destruct A as [(e & H & _)|H]; [rewrite (proj1 Q) in H; destruct H|]. apply (rest_all s root K' g' I Q root_broker J (rest_R s Q H) IG').
Qed.

(** ** an error gets there *)
(** cores, brokers and federates do nothing but process commands *)
Definition isWork (e : xevent) : bool := match e with X_serve _ _ | X_fed _ _ => true | _ => false end.
Definition leads (s s' : esys) : Prop := exists es, forallb isWork es = true /\ s' = fold_left xstep es s.
Lemma leads_refl s : leads s s. Proof. exists []. split; reflexivity. Qed.
Lemma leads_trans s1 s2 s3 : leads s1 s2 -> leads s2 s3 -> leads s1 s3.
Proof. intros (a & A1 & ->) (b & B1 & ->). exists (a ++ b). rewrite forallb_app, A1, B1, fold_left_app. split; reflexivity. Qed.
Lemma does_links y e s a b : (a <> y \/ b = y) -> x_links (does y e s) a b = x_links s a b.
Proof.
  intros H.
  assert (PU : forall e' s', x_links (up y e' s') a b = x_links s' a b). { intros e' s'. unfold Errors.up. destruct (par y) as [p|] eqn:P; [|reflexivity]. cbn. destruct (Nat.eqb a y && Nat.eqb b p) eqn:E; [|reflexivity]. apply edge_eqb in E. injection E as -> ->. destruct H as [H|H]; [congruence|]. subst p. destruct (not_self y y P eq_refl). }
  assert (PB : forall e' s', x_links (broadcast y e' s') a b = x_links s' a b). { intros e' s'. cbn. destruct (Nat.eqb_spec a y) as [->|N]; [|reflexivity]. destruct H as [H|H]; [congruence|]. subst b. destruct (filter (Nat.eqb y) (kids y)) as [|c l] eqn:F; [cbn; apply app_nil_r|]. assert (I : In c (filter (Nat.eqb y) (kids y))) by (rewrite F; left; reflexivity). apply filter_In in I as [I Q]. apply Nat.eqb_eq in Q. subst c. apply HK in I. destruct (not_self y y I eq_refl). }
  assert (PE : forall s', x_links (errorState y s') a b = x_links s' a b) by (intros s'; unfold errorState; destruct (x_state s' y); reflexivity).
  assert (PM : forall w s', x_links (marked w s') a b = x_links s' a b) by (intros [g|n|] s'; reflexivity).
  unfold Errors.does. destruct (t_core T y).
  - unfold coreError. destruct (e_global e).
    + cbv zeta. destruct (x_state (errorState y s) y); [| |apply PE]; (destruct (isParent T y (e_src e) || who_eqb (e_src e) (Node root)); [|rewrite PU]; cbn [x_links Errors.tellFeds set_x_cast set_x_box]; apply PE).
    + destruct (who_eqb (e_dst e) (Node y)).
      * cbv zeta. set (s1 := if isParent T y (e_src e) || who_eqb (e_src e) ParentC || who_eqb (e_src e) (Node root) then _ else _).
        assert (E1 : x_links s1 a b = x_links s a b) by (unfold s1; destruct (isParent T y (e_src e) || who_eqb (e_src e) ParentC || who_eqb (e_src e) (Node root)); [rewrite PE; reflexivity|apply PM]).
        destruct (nodeTerm y); [|exact E1]. rewrite PU. destruct (x_state s1 y); exact E1.
      * destruct (who_eqb (e_dst e) ParentC); [|destruct (isParent T y (e_dst e)); [apply PU|reflexivity]]. destruct (nodeTerm y); [|rewrite PU; apply PM]. rewrite PU. destruct (x_state s y); reflexivity.
  - unfold brokerError. cbv zeta. destruct (who_eqb (e_src e) (Node y)); [destruct (Nat.eqb y root); [|rewrite PU]; rewrite PB; reflexivity|]. destruct (who_eqb (e_src e) ParentC || who_eqb (e_src e) (Node root)); [rewrite PB; reflexivity|].
    destruct (e_global e || nodeTerm y); destruct (Nat.eqb y root || who_eqb (e_dst e) (Node y) || who_eqb (e_dst e) ParentC); rewrite ?PB, ?PU; rewrite ?PE; reflexivity.
Qed.
(** working off one connection *)
Lemma drain u v (P : esys -> Prop) s : (forall s1, P s1 -> P (xstep s1 (X_serve u v))) -> P s ->
  exists s', leads s s' /\ P s' /\ x_links s' u v = [] /\ forall a b, a <> v \/ b = v -> (a, b) <> (u, v) -> x_links s' a b = x_links s a b.
Proof.
  intros HP. remember (length (x_links s u v)) as n eqn:N. symmetry in N. revert s N. induction n as [|n IH]; intros s N PS.
  - exists s. split; [apply leads_refl|]. split; [exact PS|]. split; [destruct (x_links s u v); [reflexivity|discriminate]|auto].
  - destruct (x_links s u v) as [|e r] eqn:L; [discriminate|]. injection N as N.
    assert (LS : forall a b, a <> v \/ b = v -> x_links (xstep s (X_serve u v)) a b = if Nat.eqb a u && Nat.eqb b v then r else x_links s a b) by (intros a b H; cbn [Errors.xstep]; rewrite (attend_some _ _ _ _ _ L), does_links by exact H; reflexivity).
    destruct (IH (xstep s (X_serve u v))) as (s' & A & B & C & D); [|apply HP, PS|].
    { rewrite LS by (destruct (Nat.eq_dec u v); auto). rewrite !Nat.eqb_refl. exact N. }
    exists s'. split; [eapply leads_trans; [|exact A]; exists [X_serve u v]; split; reflexivity|]. split; [exact B|]. split; [exact C|]. intros a b H NE. rewrite D by assumption. rewrite LS by exact H. rewrite (edge_neq _ _ _ _ NE). reflexivity.
Qed.
Lemma inv_cast_step x : forall s1 e, Inv s1 /\ x_cast s1 x = true -> Inv (xstep s1 e) /\ x_cast (xstep s1 e) x = true.
Proof.
  intros s1 e [I C]. split; [apply inv_step, I|]. destruct (isServe e) eqn:S.
  - destruct e as [K0 g0 c0|K0 g0 c0|x0 c0|g0|g0|u v|K0 g0]; try discriminate. cbn [Errors.xstep]. destruct (x_links s1 u v) as [|e r] eqn:L; [rewrite (attend_none _ _ _ L); exact C|]. rewrite (attend_some _ _ _ _ _ L). apply (v_cast _ _ _ _ _ (proj2 (serve_ok u v e r s1 I L))), C.
  - destruct (other_ok 0%nat s1 e (i_base _ I) S) as (_ & Q & _). rewrite Q. exact C.
Qed.
Lemma spread_down s x y : Inv s -> t_core T x = false -> x_cast s x = true -> joined x y -> exists s', leads s s' /\ Inv s' /\ x_cast s' y = true.
Proof.
  intros I CX C B. induction B as [|y p P B IH]; [exists s; split; [apply leads_refl|auto]|]. destruct IH as (s1 & L1 & I1 & C1).
  destruct (drain p y (fun s => Inv s /\ x_cast s p = true) s1 (fun s2 => inv_cast_step p s2 (X_serve p y)) (conj I1 C1)) as (s2 & L2 & (I2 & C2) & E & _).
  exists s2. split; [eapply leads_trans; eassumption|]. split; [exact I2|]. destruct (i_kids _ I2 p y) as [H|H]; [destruct HT as (_ & _ & _ & Z); apply (Z y p (HK _ _ P))|exact C2|exact P|exact H|congruence].
Qed.
Lemma spread_fed s x K g : Inv s -> t_core T x = false -> x_cast s x = true -> joined x K -> In g (feds K) -> exists s', leads s s' /\ x_fed s' g <> Running.
Proof.
  intros I CX C B IG. destruct (spread_down s x K I CX C B) as (s1 & L1 & I1 & C1). pose proof (b_core _ (i_base _ I1) K g (HF K g IG) C1 IG) as [H|H]; [exists s1; auto|].
  exists (xstep s1 (X_fed K g)). split; [eapply leads_trans; [exact L1|]; exists [X_fed K g]; split; reflexivity|]. cbn [Errors.xstep]. rewrite (proj2 (at_core_in K g) IG). apply (takes_ok 0%nat K g s1 (i_base _ I1) IG), H.
Qed.
Lemma rises s : Inv s -> R s -> exists s', leads s s' /\ Inv s' /\ x_cast s' root = true.
Proof.
  intros I [C|(c & H)]; [exists s; split; [apply leads_refl|auto]|]. remember (t_depth T c) as n eqn:N. revert c N s I H. induction n as [n IH] using lt_wf_ind. intros c N s I H. pose proof H as (p & _ & P & _).
  set (Q := fun s => Inv s /\ (Rat c s \/ x_cast s root = true \/ Rat p s)).
  assert (QS : forall s1, Q s1 -> Q (xstep s1 (X_serve c p))).
  { intros s1 [I1 H1]. split; [apply inv_step, I1|]. cbn [Errors.xstep]. destruct (x_links s1 c p) as [|e r] eqn:L; [rewrite (attend_none _ _ _ L); exact H1|]. rewrite (attend_some _ _ _ _ _ L). destruct (serve_ok c p e r s1 I1 L) as [O V]. destruct H1 as [(p' & e' & P' & IL & G & D)|[H1|(p' & e' & P' & IL & H1)]].
    - assert (p' = p) by congruence. subst p'. destruct (popped_rest _ _ _ _ _ _ _ _ L IL) as [(_ & _ & ->)|IL']; [right; apply (v_rise _ _ _ _ _ V); assumption|]. left. apply (Rat_ok _ _ _ _ O). exists p, e'. auto.
    - right. left. apply (v_cast _ _ _ _ _ V), H1.
    - right. right. apply (Rat_ok _ _ _ _ O). exists p', e'. split; [exact P'|]. split; [|exact H1]. destruct (popped_rest _ _ _ _ _ _ _ _ L IL) as [(E & _)|IL']; [|exact IL']. exfalso. apply (not_self _ _ P). exact E. }
  destruct (drain c p Q s QS) as (s1 & L1 & (I1 & H1) & E & _); [split; auto|]. destruct H1 as [(p' & e' & P' & IL & _)|[H1|H1]].
  - assert (p' = p) by congruence. subst p'. rewrite E in IL. destruct IL.
  - exists s1. auto.
  - destruct (IH (t_depth T p)) with (c := p) (s := s1) as (s2 & L2 & A); [rewrite N, (parent_depth T HT _ _ P); lia|reflexivity|exact I1|exact H1|]. exists s2. split; [eapply leads_trans; eassumption|exact A].
Qed.
(** the error of a federate can always still reach every federate below the broker of its core *)
Theorem C51_global_error_gets_there es1 es2 K g code p K' g' :
  par K = Some p -> In g (feds K) -> joined root p -> joined p K' -> In g' (feds K') ->
  exists work, forallb isWork work = true /\ x_fed (xrun (es1 ++ X_global K g code :: es2 ++ work)) g' <> Running.
Proof.
  intros P IG J0 B IG'. pose proof (joined_trans _ _ _ J0 B) as J. pose proof (HF K g IG) as CK. assert (CP : t_core T p = false) by (destruct HT as (_ & _ & _ & Z); apply (Z K p P)). set (s := xrun (es1 ++ X_global K g code :: es2)).
  assert (A : afoot s K p). { apply (run_keeps (fun s => afoot s K p)); [intros s1 e' I1; apply afoot_step; assumption|]. left. exists (mkE true (Fed g) ParentC code). split; [|reflexivity]. cbn [Errors.xstep]. rewrite (proj2 (at_core_in K g) IG). cbn. rewrite !Nat.eqb_refl. cbn. apply in_or_app. right. left. reflexivity. }
  enough (G : exists s', leads s s' /\ x_fed s' g' <> Running). { destruct G as (s' & (w & W & E) & H). exists w. split; [exact W|]. replace (es1 ++ X_global K g code :: es2 ++ w) with ((es1 ++ X_global K g code :: es2) ++ w) by (rewrite <- app_assoc; reflexivity). unfold Errors.xrun. rewrite fold_left_app. unfold Errors.xrun in s. fold s. rewrite <- E. exact H. }
  assert (NK : K <> p) by (intros ->; apply (not_self p p P eq_refl)).
  set (Q := fun s => Inv s /\ afoot s K p). assert (QS : forall s1 e, Q s1 -> Q (xstep s1 e)) by (intros s1 e [I1 A1]; split; [apply inv_step, I1|apply afoot_step; assumption]).
  destruct (drain K K Q s (fun s1 => QS s1 _) (conj (inv_run _) A)) as (s1 & L1 & Q1 & E1 & _).
  destruct (drain K p Q s1 (fun s1 => QS s1 _) Q1) as (s2 & L2 & [I2 A2] & E2 & F2). assert (E3 : x_links s2 K K = []) by (rewrite F2; [exact E1|left; exact NK|congruence]).
  destruct A2 as [(e & H & _)|[(e & H & _)|[H|H]]]; [rewrite E3 in H; destruct H|rewrite E2 in H; destruct H| |].
  - destruct (spread_fed s2 p K' g' I2 CP H B IG') as (s3 & L3 & F). exists s3. split; [|exact F]. eapply leads_trans; [exact L1|]. eapply leads_trans; eassumption.
  - destruct (rises s2 I2 H) as (s3 & L3 & I3 & C3). destruct (spread_fed s3 root K' g' I3 root_broker C3 J IG') as (s4 & L4 & F). exists s4. split; [|exact F]. eapply leads_trans; [exact L1|]. eapply leads_trans; [exact L2|]. eapply leads_trans; eassumption.
Qed.
(** so does one which a core makes of a local error *)
Theorem C51_escalated_error_gets_there es1 es2 K g code K' g' :
  nodeTerm K = true -> In g (feds K) -> joined root K' -> In g' (feds K') ->
  exists work, forallb isWork work = true /\ x_fed (xrun (es1 ++ X_local K g code :: es2 ++ work)) g' <> Running.
Proof.
  intros NT IG J IG'. pose proof (HF K g IG) as CK. set (s := xrun (es1 ++ X_local K g code :: es2)).
  assert (A : afootE s K). { apply (run_keeps (fun s => afootE s K)); [intros s1 e' I1; apply afootE_step; assumption|]. left. exists (mkE false (Fed g) ParentC code). split; [|reflexivity]. cbn [Errors.xstep]. rewrite (proj2 (at_core_in K g) IG). cbn. rewrite !Nat.eqb_refl. cbn. apply in_or_app. right. left. reflexivity. }
  enough (G : exists s', leads s s' /\ x_fed s' g' <> Running). { destruct G as (s' & (w & W & E) & H). exists w. split; [exact W|]. replace (es1 ++ X_local K g code :: es2 ++ w) with ((es1 ++ X_local K g code :: es2) ++ w) by (rewrite <- app_assoc; reflexivity). unfold Errors.xrun. rewrite fold_left_app. unfold Errors.xrun in s. fold s. rewrite <- E. exact H. }
  set (Q := fun s => Inv s /\ afootE s K). assert (QS : forall s1 e, Q s1 -> Q (xstep s1 e)) by (intros s1 e [I1 A1]; split; [apply inv_step, I1|apply afootE_step; assumption]).
  destruct (drain K K Q s (fun s1 => QS s1 _) (conj (inv_run _) A)) as (s1 & L1 & [I1 A1] & E1 & _). destruct A1 as [(e & H & _)|H]; [rewrite E1 in H; destruct H|].
  destruct (rises s1 I1 H) as (s3 & L3 & I3 & C3). destruct (spread_fed s3 root K' g' I3 root_broker C3 J IG') as (s4 & L4 & F). exists s4. split; [|exact F]. eapply leads_trans; [exact L1|]. eapply leads_trans; eassumption.
Qed.
(** an error of a broker can still reach every federate below it *)
Theorem C51_broker_error_gets_there es1 es2 x code K' g' :
  t_core T x = false -> joined x K' -> In g' (feds K') ->
  exists work, forallb isWork work = true /\ x_fed (xrun (es1 ++ X_node x code :: es2 ++ work)) g' <> Running.
Proof.
  intros CX B IG'. set (s := xrun (es1 ++ X_node x code :: es2)).
  assert (A : afootB s x). { apply (run_keeps (fun s => afootB s x)); [intros s1 e' I1; apply afootB_step; assumption|]. left. cbn. rewrite !Nat.eqb_refl. cbn. destruct (x_links _ x x); discriminate. }
  enough (G : exists s', leads s s' /\ x_fed s' g' <> Running). { destruct G as (s' & (w & W & E) & H). exists w. split; [exact W|]. replace (es1 ++ X_node x code :: es2 ++ w) with ((es1 ++ X_node x code :: es2) ++ w) by (rewrite <- app_assoc; reflexivity). unfold Errors.xrun. rewrite fold_left_app. unfold Errors.xrun in s. fold s. rewrite <- E. exact H. }
  set (Q := fun s => Inv s /\ afootB s x). assert (QS : forall s1 e, Q s1 -> Q (xstep s1 e)) by (intros s1 e [I1 A1]; split; [apply inv_step, I1|apply afootB_step; assumption]).
  destruct (drain x x Q s (fun s1 => QS s1 _) (conj (inv_run _) A)) as (s1 & L1 & [I1 A1] & E1 & _). destruct A1 as [H|H]; [congruence|].
  destruct (spread_fed s1 x K' g' I1 CX H B IG') as (s2 & L2 & F). exists s2. split; [|exact F]. eapply leads_trans; eassumption.
Qed.

Lemma does_fed y e s : x_fed (does y e s) = x_fed s.
Proof.
  assert (PU : forall e' s', x_fed (up y e' s') = x_fed s') by (intros e' s'; unfold Errors.up; destruct (par y); reflexivity).
  assert (PE : forall s', x_fed (errorState y s') = x_fed s') by (intros s'; unfold errorState; destruct (x_state s' y); reflexivity).
  assert (PM : forall w s', x_fed (marked w s') = x_fed s') by (intros [g|n|] s'; reflexivity).
  unfold Errors.does. destruct (t_core T y).
  - unfold coreError. destruct (e_global e).
    + cbv zeta. destruct (x_state (errorState y s) y); [| |apply PE]; (destruct (isParent T y (e_src e) || who_eqb (e_src e) (Node root)); [|rewrite PU]; cbn [x_fed Errors.tellFeds set_x_cast set_x_box]; apply PE).
    + destruct (who_eqb (e_dst e) (Node y)).
      * cbv zeta. set (s1 := if isParent T y (e_src e) || who_eqb (e_src e) ParentC || who_eqb (e_src e) (Node root) then _ else _).
        assert (E1 : x_fed s1 = x_fed s) by (unfold s1; destruct (isParent T y (e_src e) || who_eqb (e_src e) ParentC || who_eqb (e_src e) (Node root)); [rewrite PE; reflexivity|apply PM]).
        destruct (nodeTerm y); [|exact E1]. rewrite PU. destruct (x_state s1 y); exact E1.
      * destruct (who_eqb (e_dst e) ParentC); [|destruct (isParent T y (e_dst e)); [apply PU|reflexivity]]. destruct (nodeTerm y); [|rewrite PU; apply PM]. rewrite PU. destruct (x_state s y); reflexivity.
  - unfold brokerError. cbv zeta. destruct (who_eqb (e_src e) (Node y)); [destruct (Nat.eqb y root); [|rewrite PU]; reflexivity|]. destruct (who_eqb (e_src e) ParentC || who_eqb (e_src e) (Node root)); [reflexivity|].
    destruct (e_global e || nodeTerm y); destruct (Nat.eqb y root || who_eqb (e_dst e) (Node y) || who_eqb (e_dst e) ParentC); rewrite ?PU; try apply PE; reflexivity.
Qed.
(** a federate which has stopped does not run again *)
Theorem C51_stopped_for_good es1 es2 g : x_fed (xrun es1) g <> Running -> x_fed (xrun (es1 ++ es2)) g <> Running.
Proof.
  intros H. induction es2 as [|e es2 IH] using rev_ind; [rewrite app_nil_r; exact H|]. rewrite app_assoc, xrun_snoc. set (s := xrun (es1 ++ es2)) in *. clearbody s.
  destruct e as [K h code|K h code|x code|h|h|x y|K h]; cbn [Errors.xstep].
  - destruct (at_core feds K h); exact IH.
  - destruct (at_core feds K h); exact IH.
  - exact IH.
  - destruct (x_fed s h); try exact IH. cbn. destruct (Z.eqb g h); [discriminate|exact IH].
  - destruct (x_fed s h); exact IH.
  - destruct (x_links s x y) as [|e r] eqn:L; [rewrite (attend_none _ _ _ L); exact IH|]. rewrite (attend_some _ _ _ _ _ L), does_fed. exact IH.
  - destruct (at_core feds K h); [|exact IH]. unfold fedTakes. destruct (x_box s h); [exact IH|]. cbv zeta. cbn [x_fed set_x_box]. destruct (x_fed s h); try exact IH.
    match goal with |- context [if ?b then _ else _] => destruct b end; [|exact IH]. destruct (e_global e); cbn; (destruct (Z.eqb g h); [discriminate|exact IH]).
Qed.

(** ** where errors come from *)
Definition raises (e : xevent) : list Z := match e with X_global _ _ c | X_local _ _ c | X_node _ c => [c] | _ => [] end.
Definition codes (es : list xevent) : list Z := flat_map raises es.
Record sourced (l : list Z) (s : esys) : Prop := mkSourced {
  so_link : forall x y e, In e (x_links s x y) -> In (e_code e) l;
  so_box : forall g e, In e (x_box s g) -> In (e_code e) l;
  so_fed : forall g, x_fed s g = InError -> l <> [] }.
Lemma so_put l x y e s : sourced l s -> In (e_code e) l -> sourced l (putOn x y [e] s).
Proof. intros [A B C] H. constructor; auto. intros a b e' I. cbn in I. destruct (Nat.eqb a x && Nat.eqb b y); [|apply (A a b e' I)]. apply in_app_or in I as [I|[I|[]]]; [apply (A a b e' I)|subst e'; exact H]. Qed.
Lemma so_up l x e s : sourced l s -> In (e_code e) l -> sourced l (up x e s).
Proof. intros S H. unfold Errors.up. destruct (par x); [apply so_put|]; assumption. Qed.
Lemma so_state l x b s : sourced l s -> sourced l (setState x b s). Proof. intros [A B C]. constructor; assumption. Qed.
Lemma so_error l x s : sourced l s -> sourced l (errorState x s). Proof. intros S. unfold errorState. destruct (x_state s x); [apply so_state|..]; exact S. Qed.
Lemma so_marked l w s : sourced l s -> sourced l (marked w s). Proof. intros [A B C]. destruct w; constructor; assumption. Qed.
Lemma so_tell l x c s : sourced l s -> In c l -> sourced l (tellFeds x c s).
Proof. intros [A B C] H. constructor; auto. intros g e I. cbn in I. destruct (existsb (Z.eqb g) (feds x) && x_op s g); [|apply (B g e I)]. apply in_app_or in I as [I|[I|[]]]; [apply (B g e I)|subst e; exact H]. Qed.
Lemma so_cast l x e s : sourced l s -> In (e_code e) l -> sourced l (broadcast x e s).
Proof. intros [A B C] H. constructor; auto. intros a b e' I. cbn in I. destruct (Nat.eqb a x); [|apply (A a b e' I)]. apply in_app_or in I as [I|I]; [apply (A a b e' I)|]. apply in_map_iff in I as (c & <- & _). exact H. Qed.
Lemma so_boxed l g e s : sourced l s -> In (e_code e) l -> sourced l (boxed g e s).
Proof. intros [A B C] H. constructor; auto. intros h e' I. cbn in I. destruct (Z.eqb h g); [|apply (B h e' I)]. apply in_app_or in I as [I|[I|[]]]; [apply (B h e' I)|subst e'; exact H]. Qed.
Lemma so_does l y e s : sourced l s -> In (e_code e) l -> sourced l (does y e s).
Proof.
  intros S H. unfold Errors.does. destruct (t_core T y).
  - unfold coreError. destruct (e_global e).
    + cbv zeta. destruct (x_state (errorState y s) y); [| |apply so_error, S]; (destruct (isParent T y (e_src e) || who_eqb (e_src e) (Node root)); [|apply so_up; [|exact H]]; apply so_tell; [apply so_error, S|exact H|apply so_error, S|exact H] || (apply so_tell; [apply so_error, S|exact H])).
    + destruct (who_eqb (e_dst e) (Node y)).
      * cbv zeta. set (s1 := if isParent T y (e_src e) || who_eqb (e_src e) ParentC || who_eqb (e_src e) (Node root) then _ else _).
        assert (S1 : sourced l s1) by (unfold s1; destruct (isParent T y (e_src e) || who_eqb (e_src e) ParentC || who_eqb (e_src e) (Node root)); [apply so_error, so_tell; assumption|apply so_marked, S]).
        destruct (nodeTerm y); [|exact S1]. apply so_up; [|exact H]. destruct (x_state s1 y); [apply so_state, so_tell|..]; assumption.
      * destruct (who_eqb (e_dst e) ParentC); [|destruct (isParent T y (e_dst e)); [apply so_up|]; assumption]. destruct (nodeTerm y); [|apply so_up; [apply so_marked, S|exact H]]. apply so_up; [|exact H]. destruct (x_state s y); [apply so_state, so_tell|apply so_state, so_tell|]; assumption.
  - unfold brokerError. cbv zeta. destruct (who_eqb (e_src e) (Node y)).
    + destruct (Nat.eqb y root); [|apply so_up; [|exact H]]; (apply so_cast; [apply so_state, S|exact H]).
    + destruct (who_eqb (e_src e) ParentC || who_eqb (e_src e) (Node root)); [apply so_cast; [apply so_state, S|exact H]|].
      destruct (e_global e || nodeTerm y); destruct (Nat.eqb y root || who_eqb (e_dst e) (Node y) || who_eqb (e_dst e) ParentC); try exact S.
      * apply so_cast; [apply so_error, S|exact H].
      * apply so_up; [apply so_error, S|exact H].
      * apply so_up; assumption.
Qed.
Lemma so_more l l' s : sourced l s -> sourced (l ++ l') s.
Proof. intros [A B C]. constructor; [intros x y e I; apply in_or_app; left; apply (A x y e I)|intros g e I; apply in_or_app; left; apply (B g e I)|]. intros g Q N. apply app_eq_nil in N as [N _]. apply (C g Q N). Qed.
Lemma so_run es : sourced (codes es) (xrun es).
Proof.
  induction es as [|e es IH] using rev_ind; [constructor; cbn; try contradiction; discriminate|]. unfold codes. rewrite xrun_snoc, flat_map_app. cbn [flat_map]. rewrite app_nil_r. fold (codes es). apply (so_more _ (raises e)) in IH. set (s := xrun es) in *. clearbody s.
  assert (L : forall c, raises e = [c] -> In c (codes es ++ raises e)) by (intros c ->; apply in_or_app; right; left; reflexivity). set (l := codes es ++ raises e) in *. clearbody l.
  destruct e as [K h code|K h code|x code|h|h|x y|K h]; cbn [Errors.xstep].
  - destruct (at_core feds K h); [|exact IH]. apply so_boxed; [apply so_put; [exact IH|]|]; apply L; reflexivity.
  - destruct (at_core feds K h); [|exact IH]. apply so_boxed; [apply so_put; [exact IH|]|]; apply L; reflexivity.
  - apply so_put; [exact IH|]. apply L. reflexivity.
  - destruct (x_fed s h) eqn:F; try exact IH. destruct IH as [A B C]. constructor; auto. intros g. cbn. destruct (Z.eqb g h); [discriminate|apply C].
  - destruct (x_fed s h); [exact IH|exact IH|]. apply so_marked, IH.
  - destruct (x_links s x y) as [|e r] eqn:Q; [rewrite (attend_none _ _ _ Q); exact IH|]. rewrite (attend_some _ _ _ _ _ Q). apply so_does; [|apply (so_link _ _ IH x y); rewrite Q; left; reflexivity].
    destruct IH as [A B C]. constructor; auto. intros a b e' I. apply (A a b), (popped_in _ _ _ _ _ _ _ _ Q I).
  - destruct (at_core feds K h); [|exact IH]. unfold fedTakes. destruct (x_box s h) as [|e r] eqn:Q; [exact IH|]. cbv zeta.
    assert (HE : In (e_code e) l) by (apply (so_box _ _ IH h); rewrite Q; left; reflexivity).
    set (s0 := set_x_box (fun a => if Z.eqb a h then r else x_box s a) s).
    assert (S0 : sourced l s0). { destruct IH as [A B C]. constructor; auto. intros g e' I. cbn in I. destruct (Z.eqb_spec g h) as [->|N]; [apply (B h); rewrite Q; right; exact I|apply (B g e' I)]. }
    destruct (x_fed s0 h); [|exact S0|exact S0]. match goal with |- context [if ?b then _ else _] => destruct b end; [|exact S0].
    assert (S1 : sourced l (set_x_fed (fun a => if Z.eqb a h then InError else x_fed s0 a) s0)). { destruct S0 as [A B C]. constructor; auto. intros g. cbn. destruct (Z.eqb g h); [intros _ N; rewrite N in HE; destruct HE|apply C]. }
    destruct (e_global e); [exact S1|apply so_put; [exact S1|exact HE]].
Qed.
(** no federate is in error unless somebody reported one, and a federate is told only codes which were reported *)
Theorem C51_errors_are_reported es g :
  (x_fed (xrun es) g = InError -> codes es <> []) /\ (forall e, In e (x_box (xrun es) g) -> In (e_code e) (codes es)).
Proof. destruct (so_run es) as [A B C]. split; [apply C|apply B]. Qed.

(** ** a local error stays where it is *)
Section Local.
Hypothesis NT : forall x, nodeTerm x = false.
Hypothesis FT : forall g, fedTerm g = false.
Definition onlyLocal (e : xevent) : Prop := match e with X_global _ _ _ | X_node _ _ => False | _ => True end.
Definition mild (e : err) : Prop := e_global e = false /\ (exists g, e_src e = Fed g) /\ e_dst e = ParentC.
Record calm (es : list xevent) (s : esys) : Prop := mkCalm {
  c_link : forall x y e, In e (x_links s x y) -> mild e;
  c_box : forall g e, In e (x_box s g) -> e_global e = false /\ exists K code, In (X_local K g code) es /\ In g (feds K);
  c_fed : forall g, x_fed s g = InError -> exists K code, In (X_local K g code) es /\ In g (feds K) }.
Lemma calm_does y e s es : calm es s -> mild e -> calm es (does y e s).
Proof.
  intros [C1 C2 C3] M. pose proof M as (G & (g & S) & D). unfold Errors.does. destruct (t_core T y).
  - unfold coreError. rewrite G, D, S, NT. cbn [who_eqb]. unfold Errors.up. destruct (par y) as [p|]; [|constructor; assumption]. constructor; try assumption. intros a b e' I. cbn in I. destruct (Nat.eqb a y && Nat.eqb b p); [|apply (C1 a b e' I)]. apply in_app_or in I as [I|[I|[]]]; [apply (C1 a b e' I)|subst e'; exact M].
  - unfold brokerError. rewrite G, D, S, NT. cbn [who_eqb]. rewrite orb_true_r. cbn. constructor; assumption.
Qed.
Lemma calm_run es : Forall onlyLocal es -> calm es (xrun es).
Proof.
  induction es as [|e es IH] using rev_ind; intros F; [constructor; cbn; try contradiction; discriminate|]. apply Forall_app in F as [F FE]. inversion FE as [|e0 l0 OE _]. subst e0 l0. specialize (IH F). rewrite xrun_snoc. set (s := xrun es) in *. clearbody s.
  assert (W : forall s', calm es s' -> calm (es ++ [e]) s'). { intros s' [C1 C2 C3]. constructor; [exact C1| |]. - intros g e' I. destruct (C2 g e' I) as (Q & K & code & I' & H). split; [exact Q|]. exists K, code. split; [apply in_or_app; auto|exact H]. - intros g Q. destruct (C3 g Q) as (K & code & I' & H). exists K, code. split; [apply in_or_app; auto|exact H]. }
  destruct e as [K g code|K g code|x code|g|g|x y|K g]; cbn [Errors.xstep onlyLocal] in *; try contradiction.
  - destruct (at_core feds K g) eqn:A; [|apply W, IH]. apply at_core_in in A. destruct (W s IH) as [C1 C2 C3]. constructor; [| |exact C3].
    + intros a b e' I. cbn in I. destruct (Nat.eqb a K && Nat.eqb b K); [|apply (C1 a b e' I)]. apply in_app_or in I as [I|[I|[]]]; [apply (C1 a b e' I)|subst e']. split; [reflexivity|]. split; [exists g|]; reflexivity.
    + intros h e' I. cbn in I. destruct (Z.eqb_spec h g) as [->|N]; [|apply (C2 h e' I)]. apply in_app_or in I as [I|[I|[]]]; [apply (C2 g e' I)|subst e']. split; [reflexivity|]. exists K, code. split; [apply in_or_app; right; left; reflexivity|exact A].
  - apply W. destruct (x_fed s g) eqn:Q; try exact IH. destruct IH as [C1 C2 C3]. constructor; [exact C1|exact C2|]. intros h. cbn. destruct (Z.eqb h g); [discriminate|apply C3].
  - apply W. destruct (x_fed s g) eqn:Q; exact IH || (destruct IH as [C1 C2 C3]; constructor; assumption).
  - apply W. destruct (x_links s x y) as [|e r] eqn:L; [rewrite (attend_none _ _ _ L); exact IH|]. rewrite (attend_some _ _ _ _ _ L). destruct IH as [C1 C2 C3]. apply calm_does; [|apply (C1 x y); rewrite L; left; reflexivity]. constructor; [|exact C2|exact C3]. intros a b e' I. apply (C1 a b), (popped_in _ _ _ _ _ _ _ _ L I).
  - apply W. destruct (at_core feds K g) eqn:A; [|exact IH]. apply at_core_in in A. unfold fedTakes. destruct (x_box s g) as [|e r] eqn:L; [exact IH|]. cbv zeta. destruct IH as [C1 C2 C3].
    assert (EG : e_global e = false /\ exists K code, In (X_local K g code) es /\ In g (feds K)) by (apply C2 with (e := e); rewrite L; left; reflexivity). destruct EG as [EG EH].
    set (s0 := set_x_box (fun a => if Z.eqb a g then r else x_box s a) s).
    assert (CB : forall h e', In e' (x_box s0 h) -> e_global e' = false /\ exists K code, In (X_local K h code) es /\ In h (feds K)). { intros h e' I. cbn in I. destruct (Z.eqb_spec h g) as [->|N]; [apply (C2 g e'); rewrite L; right; exact I|apply (C2 h e' I)]. }
    assert (CS : calm es s0) by (constructor; assumption). destruct (x_fed s0 g); [|exact CS|exact CS]. match goal with |- context [if ?b then _ else _] => destruct b end; [|exact CS]. rewrite EG.
    constructor; [|exact CB|].
    + intros a b e' I. cbn in I. destruct (Nat.eqb a K && Nat.eqb b K); [|apply (C1 a b e' I)]. apply in_app_or in I as [I|[I|[]]]; [apply (C1 a b e' I)|subst e']. split; [apply FT|]. split; [exists g|]; reflexivity.
    + intros h. cbn. destruct (Z.eqb_spec h g) as [->|N]; [intros _; exact EH|apply C3].
Qed.
(** without terminate_on_error, and without global errors, only the federates which report an error are in error *)
Theorem C51_local_error_stays_local es g : Forall onlyLocal es -> x_fed (xrun es) g = InError -> exists K code, In (X_local K g code) es.
Proof. intros F E. destruct (c_fed _ _ (calm_run es F) g E) as (K & code & I & _). eauto. Qed.
End Local.
End Spread.
