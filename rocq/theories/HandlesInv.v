(** * The registry keeps its promise (specification and invariant) *)
From Coq Require Import ZArith Bool List Lia Sorted Relations.
From Verif Require Import HTime Action Interfaces InputSpec PropsInput Ids PropsIds Handles HandlesAlias.
Import ListNotations.

(** ** Specification *)
(** an interface of kind [k] answers to a search for kind [asked] *)
Definition serves (k asked : kind) : bool :=
  match asked with
  | PUBLICATION => kind_eqb k PUBLICATION || kind_eqb k TRANSLATOR
  | INPUT => kind_eqb k INPUT || kind_eqb k TRANSLATOR || kind_eqb k SINK
  | ENDPOINT => kind_eqb k ENDPOINT || kind_eqb k TRANSLATOR || kind_eqb k SINK
  | FILTER => kind_eqb k FILTER
  | TRANSLATOR => kind_eqb k TRANSLATOR
  | SINK => kind_eqb k SINK
  | UNKNOWN => false
  end.
(** names connected by the alias declarations [D] *)
Definition linked (D : list (name * name)) : name -> name -> Prop := clos_refl_sym_trans name (fun a b => In (a, b) D).
(** no other name is connected with [n] *)
Definition alone (D : list (name * name)) (n : name) : Prop := forall m, linked D n m -> m = n.
(** among the interfaces [L] (registered, not removed) there is one known as [n] which answers to [asked] *)
Definition known (L : list info) (D : list (name * name)) (asked : kind) (n : name) (h : info) : Prop :=
  In h L /\ serves (h_kind h) asked = true /\ linked D (h_key h) n.
(** registering kind [k] under [key] is a duplicate *)
Definition duplicate (L : list info) (D : list (name * name)) (k : kind) (key : name) : Prop :=
  exists h asked, known L D asked key h /\ serves k asked = true.
Definition several (k : kind) : Prop := k = TRANSLATOR \/ k = SINK.

Inductive op := Register (id : Z * Z) (k : kind) (key ty un : name) | Remove (id : Z * Z) | RemoveFederate (fed : Z) | Alias (i a : name).
(** what the theorems ask of a history.  A global handle identifies one interface; interfaces have a kind and a name.
    The other conditions exclude the defects shown at the end of PropsHandles.v: a failing registration of an interface with
    several kinds, the removal of an interface which has aliases, and alias declarations other than those here. *)
Definition allowed (L : list info) (D : list (name * name)) (o : op) : Prop :=
  match o with
  | Register id k key _ _ => key <> [] /\ k <> UNKNOWN /\ (forall h, In h L -> h_id h <> id) /\ (several k -> ~ duplicate L D k key)
  | Remove id => forall h, In h L -> h_id h = id -> alone D (h_key h)
  | RemoveFederate fed => forall h, In h L -> fst (h_id h) = fed -> alone D (h_key h)
  | Alias i a =>
    linked D i a \/
    (alone D i /\ (forall asked h h', known L D asked i h -> known L D asked a h' -> False)) \/
    (alone D a /\ (forall asked h, ~ known L D asked a h))
  end.
(** interfaces and declarations after an operation ([thrown]: an exception was thrown) *)
Definition liveAfter (L : list info) (o : op) (thrown : bool) : list info :=
  match o with
  | Register id k key ty un => if thrown then L else L ++ [mkInfo id k key ty un]
  | Remove id => filter (fun h => negb (handleEq (h_id h) id)) L
  | RemoveFederate fed => filter (fun h => negb (fst (h_id h) =? fed)%Z) L
  | Alias _ _ => L
  end.
Definition linksAfter (D : list (name * name)) (o : op) : list (name * name) := match o with Alias i a => (i, a) :: D | _ => D end.
(** the model's operation *)
Definition doOp (gen : kind -> nat -> name) (o : op) (s : hm) : aliasResult :=
  match o with
  | Register id k key ty un => let '(s, thrown) := addHandle gen (fst id) (snd id) k key ty un s in AOk s thrown
  | Remove id => AOk (removeHandle id s) false
  | RemoveFederate fed => AOk (removeFederateHandles fed s) false
  | Alias i a => addAlias i a s
  end.
Inductive reach (gen : kind -> nat -> name) : hm -> list info -> list (name * name) -> Prop :=
| reach_start : reach gen emptyHM [] []
| reach_op s L D o s' thrown : reach gen s L D -> allowed L D o -> doOp gen o s = AOk s' thrown -> reach gen s' (liveAfter L o thrown) (linksAfter D o).

(** ** links *)
Lemma linked_refl D n : linked D n n.
Proof. apply rst_refl. Qed.
Lemma linked_sym D a b : linked D a b -> linked D b a.
Proof. apply rst_sym. Qed.
Lemma linked_trans D a b c : linked D a b -> linked D b c -> linked D a c.
Proof. apply rst_trans. Qed.
Lemma linked_nil a b : linked [] a b -> a = b.
Proof. induction 1; cbn in *; try tauto; congruence. Qed.
Lemma linked_weaken D p a b : linked D a b -> linked (p :: D) a b.
Proof. induction 1; [apply rst_step; right; assumption|apply rst_refl|apply rst_sym; assumption|eapply rst_trans; eassumption]. Qed.
Lemma linked_add D x y u v : linked ((x, y) :: D) u v <-> linked D u v \/ (linked D u x /\ linked D y v) \/ (linked D u y /\ linked D x v).
Proof.
  split.
  - induction 1 as [u v [E|H]|u|u v _ IH|u v w _ IH1 _ IH2].
    + injection E as <- <-. right. left. split; apply linked_refl.
    + left. apply rst_step. exact H.
    + left. apply linked_refl.
    + destruct IH as [H|[[H1 H2]|[H1 H2]]]; [left|right; right|right; left]; try split; apply linked_sym; assumption.
    + destruct IH1 as [A|[[A A']|[A A']]], IH2 as [B|[[B B']|[B B']]].
      * left. exact (linked_trans _ _ _ _ A B).
      * right. left. split; [exact (linked_trans _ _ _ _ A B)|exact B'].
      * right. right. split; [exact (linked_trans _ _ _ _ A B)|exact B'].
      * right. left. split; [exact A|exact (linked_trans _ _ _ _ A' B)].
      * right. left. split; [exact A|exact B'].
      * left. exact (linked_trans _ _ _ _ A B').
      * right. right. split; [exact A|exact (linked_trans _ _ _ _ A' B)].
      * left. exact (linked_trans _ _ _ _ A B').
      * right. right. split; [exact A|exact B'].
  - assert (S1 : linked ((x, y) :: D) x y) by (apply rst_step; left; reflexivity).
    intros [H|[[H1 H2]|[H1 H2]]]; [apply linked_weaken; exact H| |]; apply (linked_weaken D (x, y)) in H1, H2.
    + eapply linked_trans; [exact H1|]. eapply linked_trans; eassumption.
    + eapply linked_trans; [exact H1|]. eapply linked_trans; [apply linked_sym; exact S1|exact H2].
Qed.

Definition aliasInv (al : amap) (D : list (name * name)) : Prop :=
  (forall u v, In v (vecOf u al) <-> v <> u /\ linked D u v) /\ (forall u, sorted (vecOf u al)) /\ (forall u v, find u al = Some v -> v <> []).

Lemma sorted_nodup v : sorted v -> NoDup v.
Proof.
  induction 1 as [|x v S' IH F]; constructor; [|exact IH]. intros H. rewrite Forall_forall in F. specialize (F _ H). rewrite nameLt_irrefl in F. discriminate.
Qed.
Lemma find_key {A} n (m : list (name * A)) v : find n m = Some v -> In n (map fst m).
Proof. induction m as [|[k w] m IH]; cbn; [discriminate|]. destruct (beq k n) eqn:B; [intros _; left; apply beq_eq; exact B|right; auto]. Qed.
Lemma present al D n i a : aliasInv al D -> linked D i a -> (0 < n)%nat -> addAliasName n [] al i a = Done al false.
Proof.
  intros (A1 & A2 & A3) H N. destruct n as [|n]; [lia|]. cbn [addAliasName]. destruct (beq i a) eqn:B; [reflexivity|]. apply beq_neq in B.
  assert (I : In a (vecOf i al)) by (apply A1; split; congruence). pose proof (A2 i) as Si. unfold vecOf in I, Si. destruct (find i al) as [v|]; [|destruct I].
  pose proof (lowerInsert_spec a v Si) as L. destruct (lowerInsert a v); [tauto|reflexivity].
Qed.
Lemma filter_length_le {A} (p : A -> bool) l : (length (filter p l) <= length l)%nat.
Proof. induction l as [|x l IH]; cbn; [lia|]. destruct (p x); cbn; lia. Qed.
Lemma joins al D x y k f : aliasInv al D -> (x = k /\ y = f \/ x = f /\ y = k) -> k <> f -> alone D f ->
  exists al' c, addAliasName (fuelFor al) [] al x y = Done al' c /\ aliasInv al' ((x, y) :: D) /\ ((exists o, linked D k o /\ o <> k) -> c = true).
Proof.
  intros (A1 & A2 & A3) C NE AL. set (K := k :: vecOf k al).
  assert (Kin : forall u, In u K <-> linked D k u).
  { intros u. unfold K. cbn. rewrite A1. split; [intros [<-|[_ H]]; [apply linked_refl|exact H]|]. intros H. destruct (name_dec k u) as [->|]; [left; reflexivity|right; split; congruence]. }
  assert (NK : NoDup K) by (unfold K; constructor; [rewrite A1; tauto|apply sorted_nodup, A2]).
  assert (Ff : ~ In f K) by (rewrite Kin; intros H; apply NE; symmetry; apply linked_sym in H; apply AL in H; congruence).
  assert (Vf : vecOf f al = []).
  { destruct (vecOf f al) as [|z v] eqn:E; [reflexivity|]. exfalso. assert (H : In z (vecOf f al)) by (rewrite E; left; reflexivity). apply A1 in H. destruct H as [H1 H2]. apply AL in H2. contradiction. }
  assert (P0 : P al K f al).
  { unfold P. split; [reflexivity|]. split; [|split; [|split; [|split]]].
    - intros u Ku v H. apply A1 in H. destruct H as [H1 H2]. split; [exact H1|]. left. apply Kin. apply Kin in Ku. eapply linked_trans; eassumption.
    - intros u v Ku Kv N. apply A1. split; [exact N|]. apply Kin in Ku, Kv. eapply linked_trans; [apply linked_sym; exact Ku|exact Kv].
    - rewrite Vf. intros v [].
    - exact A2.
    - exact A3. }
  assert (Kk : In k K) by (left; reflexivity).
  assert (LK : (length K <= length al + 1)%nat).
  { unfold K. cbn. enough (length (vecOf k al) <= length al)%nat by lia. rewrite <- (map_length fst al). apply NoDup_incl_length; [apply sorted_nodup, A2|].
    intros v H. apply A1 in H. destruct H as [H1 H2]. assert (I : In k (vecOf v al)) by (apply A1; split; [congruence|apply linked_sym; exact H2]). unfold vecOf in I.
    destruct (find v al) eqn:E; [|destruct I]. apply (find_key _ _ _ E). }
  assert (M : (miss K f al < fuelFor al)%nat).
  { unfold miss, fuelFor. pose proof (filter_length_le (fun u => negb (mem f (vecOf u al))) K). pose proof (filter_length_le (fun u => negb (mem u (vecOf f al))) K). nia. }
  destruct (join al K f Ff (fuelFor al) al [] x y k P0 (fun b (H : In b []) => match H with end) C Kk M) as (al' & c & R & P' & X & Y & N & Q1 & Q2).
  assert (AF : allf K f al').
  { assert (F1 : ~ In f (vecOf k al)) by (rewrite A1; intros [_ H]; apply Ff; apply Kin; exact H). assert (F2 : ~ In k (vecOf f al)) by (rewrite Vf; intros []).
    destruct C as [[-> ->]|[-> ->]]; [destruct (Q1 eq_refl)|destruct (Q2 eq_refl) as [|[|]]]; try assumption; contradiction. }
  exists al', c. split; [exact R|]. destruct P' as (P1 & P2 & P3 & P4 & P5 & P6). split; [split; [|split; assumption]|].
  - assert (AFr : forall o, In o K -> In o (vecOf f al')).
    { intros o Ko. destruct (N o f (AF o Ko)) as [H|H]; [|exact H]. apply A1 in H. exfalso. destruct H as [_ H]. apply Ff, Kin. apply Kin in Ko. eapply linked_trans; eassumption. }
    assert (LA : forall u v, linked ((x, y) :: D) u v <-> linked D u v \/ (linked D u k /\ v = f) \/ (u = f /\ linked D k v)).
    { assert (F1 : forall v, linked D f v <-> v = f) by (intros v; split; [apply AL|intros ->; apply linked_refl]).
      assert (F2 : forall v, linked D v f <-> v = f) by (intros v; split; [intros H; apply AL, linked_sym, H|intros ->; apply linked_refl]).
      intros u v. rewrite linked_add. destruct C as [[-> ->]|[-> ->]]; rewrite F1, F2; tauto. }
    intros u v. rewrite LA. destruct (in_dec name_dec u K) as [Ku|Ku].
    + split.
      * intros H. destruct (P2 u Ku v H) as [H1 [H2| ->]]; (split; [exact H1|]).
        -- left. apply Kin in Ku, H2. eapply linked_trans; [apply linked_sym; exact Ku|exact H2].
        -- right. left. split; [apply linked_sym, Kin, Ku|reflexivity].
      * intros [H1 [H|[[H ->]|[-> H]]]]; [|apply AF; exact Ku|contradiction]. apply P3; [exact Ku| |exact H1]. apply Kin. apply Kin in Ku. eapply linked_trans; eassumption.
    + destruct (name_dec u f) as [->|Nf].
      * split.
        -- intros H. pose proof (P4 v H) as Kv. split; [intros ->; contradiction|]. right. right. split; [reflexivity|apply Kin; exact Kv].
        -- intros [H1 [H|[[H ->]|[_ H]]]]; [apply AL in H; contradiction|contradiction|]. apply AFr, Kin, H.
      * unfold vecOf. rewrite P1 by assumption. fold (vecOf u al). rewrite A1. split; [tauto|]. intros [H1 [H|[[H ->]|[-> H]]]]; [tauto| |contradiction]. exfalso. apply Ku, Kin, linked_sym, H.
  - intros (o & O1 & O2). assert (Fk : exists v, find k al = Some v).
    { assert (H : In o (vecOf k al)) by (apply A1; auto). unfold vecOf in H. destruct (find k al) as [v|]; [exists v; reflexivity|destruct H]. }
    destruct Fk as [v Fk]. assert (nF : ~ In f v) by (intros H; assert (H' : In f (vecOf k al)) by (unfold vecOf; rewrite Fk; exact H); apply A1 in H'; apply Ff, Kin, H').
    assert (Sv : sorted v) by (pose proof (A2 k) as Sv; unfold vecOf in Sv; rewrite Fk in Sv; exact Sv).
    assert (G : forall n busy al1, find k al1 = Some v -> addAliasName n busy al1 k f = Done al' c -> c = true).
    { intros [|n] busy al1 F1 H; cbn [addAliasName] in H; [discriminate|]. rewrite (proj2 (beq_neq k f) NE), F1 in H. pose proof (lowerInsert_spec f v Sv) as L. destruct (lowerInsert f v) as [v'|]; [|contradiction].
      destruct (existsb (beq k) busy); [discriminate|]. match type of H with match ?l with _ => _ end = _ => destruct l as [al2 c2| |] end; try discriminate. destruct (addAliasName n busy al2 f k); congruence. }
    destruct C as [[-> ->]|[-> ->]]; [exact (G _ _ _ Fk R)|]. unfold fuelFor in R. rewrite Nat.add_succ_r in R. cbn [addAliasName] in R. rewrite (proj2 (beq_neq f k) (not_eq_sym NE)) in R.
    assert (E : find f al = None) by (destruct (find f al) as [w|] eqn:E; [|reflexivity]; exfalso; apply (A3 _ _ E); unfold vecOf in Vf; rewrite E in Vf; exact Vf).
    rewrite E in R. refine (G _ _ _ _ R). rewrite find_assign. rewrite (proj2 (beq_neq f k) (not_eq_sym NE)). exact Fk.
Qed.

(** ** the invariant *)
Definition Inv (s : hm) (L : list info) (D : list (name * name)) : Prop :=
  (forall h, In h L -> exists i, findUid (h_id h) (uids s) = Some i /\ nth_error (handles s) i = Some h) /\
  (forall id i, findUid id (uids s) = Some i -> exists h, In h L /\ h_id h = id) /\
  (forall t n i, find n (tab t s) = Some i <-> exists h, In h L /\ findUid (h_id h) (uids s) = Some i /\ In t (tablesOf (h_kind h)) /\ linked D (h_key h) n) /\
  (forall h, In h L -> h_key h <> [] /\ h_kind h <> UNKNOWN) /\
  aliasInv (aliases s) D.
Definition askedOf (t : table) : kind := match t with Pubs => PUBLICATION | Epts => ENDPOINT | Inps => INPUT | Filts => FILTER end.
Lemma tablesOf_serves k t : In t (tablesOf k) <-> serves k (askedOf t) = true.
Proof. destruct k, t; cbn; intuition congruence. Qed.
Lemma serves_table k asked : serves k asked = true -> In (getMap asked) (tablesOf k).
Proof. destruct k, asked; cbn; intros; try discriminate; intuition. Qed.
Lemma table_dec (a b : table) : {a = b} + {a <> b}.
Proof. decide equality. Qed.
Lemma tab_setTab t t' m s : tab t (setTab t' m s) = if table_dec t t' then m else tab t s.
Proof. destruct t, t'; destruct (table_dec _ _); try congruence; reflexivity. Qed.
Lemma setTab_same t s : setTab t (tab t s) s = s.
Proof. destruct s, t; reflexivity. Qed.
Lemma setTab_frame t m s : handles (setTab t m s) = handles s /\ uids (setTab t m s) = uids s /\ aliases (setTab t m s) = aliases s.
Proof. destruct t; repeat split. Qed.
Lemma inv_unique s L D h h' : Inv s L D -> In h L -> In h' L -> h_id h = h_id h' -> h = h'.
Proof. intros (U1 & _) H H' E. destruct (U1 h H) as (i & A & B), (U1 h' H') as (i' & A' & B'). congruence. Qed.
Lemma inv_index s L D h h' i : Inv s L D -> In h L -> In h' L -> findUid (h_id h) (uids s) = Some i -> findUid (h_id h') (uids s) = Some i -> h = h'.
Proof. intros (U1 & _) H H' E E'. destruct (U1 h H) as (j & A & B), (U1 h' H') as (j' & A' & B'). congruence. Qed.
Lemma inv_exclusive s L D h h' t : Inv s L D -> In h L -> In h' L -> In t (tablesOf (h_kind h)) -> In t (tablesOf (h_kind h')) -> linked D (h_key h) (h_key h') -> h = h'.
Proof.
  intros I H H' T T' LK. pose proof I as (U1 & U2 & TI & _). destruct (U1 h H) as (i & A & B), (U1 h' H') as (i' & A' & B').
  assert (E : find (h_key h') (tab t s) = Some i) by (apply TI; exists h; auto). assert (E' : find (h_key h') (tab t s) = Some i') by (apply TI; exists h'; auto using linked_refl). congruence.
Qed.
Lemma inv_ext s L L' D : (forall h, In h L <-> In h L') -> Inv s L D -> Inv s L' D.
Proof.
  intros E (U1 & U2 & TI & NI & AI). split; [|split; [|split; [|split]]]; [| | | |exact AI].
  - intros h H. apply U1, E, H.
  - intros id i H. destruct (U2 id i H) as (h & A & B). exists h. rewrite <- E. auto.
  - intros t n i. rewrite TI. split; intros (h & A & B); exists h; (split; [apply E; exact A|exact B]).
  - intros h H. apply NI, E, H.
Qed.
Lemma start_inv : Inv emptyHM [] [].
Proof.
  split; [intros h []|]. split; [intros id i H; discriminate|]. split; [intros t n i; split; [destruct t; discriminate|intros (h & [] & _)]|]. split; [intros h []|].
  split; [|split; [intros u; constructor|intros u v H; discriminate]]. intros u v. cbn. split; [intros []|intros [N H]; apply linked_nil in H; congruence].
Qed.
Lemma handleEq_refl h : handleEq h h = true.
Proof. apply handleEq_iff. reflexivity. Qed.
Lemma findUid_emplace h i u x : findUid x (emplaceUid h i u) = match findUid x u with Some j => Some j | None => if handleEq h x then Some i else None end.
Proof.
  unfold emplaceUid. destruct (findUid h u) eqn:E.
  - destruct (findUid x u) eqn:Ex; [reflexivity|]. destruct (handleEq h x) eqn:B; [|reflexivity]. apply handleEq_iff in B. congruence.
  - clear E. induction u as [|[k j] u IH]; cbn; [reflexivity|]. destruct (handleEq k x); [reflexivity|]. exact IH.
Qed.
Lemma findUid_erase h u x : findUid x (eraseUid h u) = if handleEq h x then None else findUid x u.
Proof.
  unfold eraseUid. induction u as [|[k v] m IH]; cbn; [destruct (handleEq h x); reflexivity|]. destruct (handleEq k h) eqn:B; cbn.
  - rewrite IH. apply handleEq_iff in B. subst k. destruct (handleEq h x); reflexivity.
  - rewrite IH. destruct (handleEq k x) eqn:Bx; [|reflexivity]. apply handleEq_iff in Bx. subst k. destruct (handleEq h x) eqn:Bn; [|reflexivity]. apply handleEq_iff in Bn. subst h. rewrite handleEq_refl in B. discriminate.
Qed.

(** *** registration *)
Lemma emplaceAll_spec l i : forall m, (forall a, In a l -> find a m = None) -> NoDup l ->
  snd (emplaceAll l i m) = false /\ forall x, find x (fst (emplaceAll l i m)) = if mem x l then Some i else find x m.
Proof.
  induction l as [|a l IH]; intros m H N; cbn [emplaceAll]; [split; reflexivity|]. inversion N as [|? ? N1 N2]; subst. rewrite (H a (or_introl eq_refl)).
  destruct (IH (emplace a i m)) as [A B]; [|exact N2|].
  - intros b Hb. rewrite find_emplace, (H b (or_intror Hb)). destruct (beq a b) eqn:E; [|reflexivity]. apply beq_eq in E. subst. contradiction.
  - split; [exact A|]. intros x. rewrite B, find_emplace. unfold mem. cbn [existsb]. fold (mem x l). destruct (mem x l); [rewrite orb_true_r; reflexivity|]. rewrite orb_false_r.
    destruct (beq x a) eqn:E.
    + apply beq_eq in E. subst x. rewrite (H a (or_introl eq_refl)), beq_refl. reflexivity.
    + destruct (find x m); [reflexivity|]. destruct (beq a x) eqn:E'; [|reflexivity]. apply beq_eq in E'. subst. rewrite beq_refl in E. discriminate.
Qed.
Lemma addFields_new al D key i m : aliasInv al D -> (forall n, linked D key n -> find n m = None) ->
  snd (addFields key i al m) = false /\ forall x y, find x (fst (addFields key i al m)) = Some y <-> (linked D key x /\ y = i \/ find x m = Some y).
Proof.
  intros (A1 & A2 & A3) H. unfold addFields. rewrite (H key (linked_refl _ _)).
  assert (V : forall x, linked D key x <-> x = key \/ In x (vecOf key al)).
  { intros x. rewrite A1. split; [intros L; destruct (name_dec x key); auto|intros [->|[_ L]]; [apply linked_refl|exact L]]. }
  assert (E0 : forall x, find x (emplace key i m) = if beq key x then Some i else find x m).
  { intros x. rewrite find_emplace. destruct (beq key x) eqn:B; [apply beq_eq in B; subst x; rewrite (H key (linked_refl _ _)); reflexivity|]. destruct (find x m); reflexivity. }
  assert (G : forall l, vecOf key al = l -> snd (emplaceAll l i (emplace key i m)) = false /\
            forall x y, find x (fst (emplaceAll l i (emplace key i m))) = Some y <-> (linked D key x /\ y = i \/ find x m = Some y)).
  { intros l El. destruct (emplaceAll_spec l i (emplace key i m)) as [B1 B2].
    - intros a Ha. rewrite E0. rewrite <- El in Ha. destruct (proj1 (A1 _ _) Ha) as [Na La]. rewrite (proj2 (beq_neq key a)) by congruence. apply H. exact La.
    - rewrite <- El. apply sorted_nodup, A2.
    - split; [exact B1|]. intros x y. rewrite B2, E0, V, El. destruct (mem x l) eqn:M.
      + apply mem_in in M. split; [intros E; left; split; [right; exact M|congruence]|]. intros [[_ ->]|F]; [reflexivity|]. exfalso. rewrite H in F; [discriminate|]. apply V. right. rewrite El. exact M.
      + assert (NM : ~ In x l) by (rewrite <- mem_in; congruence). destruct (beq key x) eqn:B.
        * apply beq_eq in B. subst x. split; [intros E; left; split; [left; reflexivity|congruence]|]. intros [[_ ->]|F]; [reflexivity|]. rewrite (H key (linked_refl _ _)) in F. discriminate.
        * apply beq_neq in B. split; [auto|]. intros [[[->|C] _]|F]; [congruence|contradiction|exact F]. }
  unfold vecOf in G. destruct (find key al) as [l|] eqn:El; [apply G; reflexivity|]. exact (G [] eq_refl).
Qed.
Lemma addToTables_new D key i : forall l s, aliasInv (aliases s) D -> NoDup l -> (forall t n, In t l -> linked D key n -> find n (tab t s) = None) ->
  exists s', addToTables l key i s = (s', false) /\ handles s' = handles s /\ uids s' = uids s /\ aliases s' = aliases s /\
    forall t x y, find x (tab t s') = Some y <-> (In t l /\ linked D key x /\ y = i \/ find x (tab t s) = Some y).
Proof.
  induction l as [|t l IH]; intros s AI N H; cbn [addToTables].
  - exists s. repeat split; auto. intros [[[] _]|E]; exact E.
  - inversion N as [|? ? N1 N2]; subst. destruct (addFields_new (aliases s) D key i (tab t s) AI (fun n L => H t n (or_introl eq_refl) L)) as [B1 B2].
    destruct (addFields key i (aliases s) (tab t s)) as [m thrown]. cbn [fst snd] in *. subst thrown.
    destruct (setTab_frame t m s) as (F1 & F2 & F3). destruct (IH (setTab t m s)) as (s' & R & R1 & R2 & R3 & R4); [rewrite F3; exact AI|exact N2| |].
    { intros t' n T' L. rewrite tab_setTab. destruct (table_dec t' t) as [->|]; [contradiction|]. apply H; [right; exact T'|exact L]. }
    exists s'. split; [exact R|]. split; [congruence|]. split; [congruence|]. split; [congruence|]. intros t' x y. rewrite R4, tab_setTab. destruct (table_dec t' t) as [->|Nt].
    + rewrite B2. cbn. intuition.
    + cbn. intuition congruence.
Qed.
Lemma addToTables_dup l key i s t : l = [t] -> find key (tab t s) <> None -> addToTables l key i s = (s, true).
Proof.
  intros -> H. cbn [addToTables]. unfold addFields. destruct (find key (tab t s)) eqn:E; [|congruence]. rewrite setTab_same. reflexivity.
Qed.
Lemma tablesOf_nodup k : NoDup (tablesOf k).
Proof. destruct k; repeat constructor; cbn; intuition congruence. Qed.
Lemma nth_snoc {A} (l : list A) x i y : nth_error l i = Some y -> nth_error (l ++ [x]) i = Some y.
Proof. intros H. rewrite nth_error_app1; [exact H|]. apply nth_error_Some. congruence. Qed.
Lemma ne_match {A} (key : name) (a b : A) : key <> [] -> match key with [] => a | _ :: _ => b end = b.
Proof. destruct key; [congruence|reflexivity]. Qed.
Lemma register_inv gen s L D id k key ty un : Inv s L D -> allowed L D (Register id k key ty un) ->
  exists s' thrown, doOp gen (Register id k key ty un) s = AOk s' thrown /\ (thrown = true <-> duplicate L D k key) /\ Inv s' (liveAfter L (Register id k key ty un) thrown) D.
Proof.
  intros I (NK & NU & NI & SV). pose proof I as (U1 & U2 & TI & NE & AI). cbn [doOp]. unfold addHandle, actKey. rewrite (ne_match key) by exact NK.
  rewrite <- surjective_pairing. set (h := mkInfo id k key ty un). set (i := length (handles s)). set (s1 := setHandles (handles s ++ [h]) s).
  assert (Tab1 : forall t, tab t s1 = tab t s) by (intros []; reflexivity).
  assert (Fid : findUid id (uids s) = None) by (destruct (findUid id (uids s)) eqn:E; [|reflexivity]; destruct (U2 _ _ E) as (h' & A & B); exfalso; exact (NI _ A B)).
  assert (Inv1 : Inv s1 L D).
  { split; [|split; [|split; [|split]]]; [| | | |exact AI].
    - intros h' H'. destruct (U1 h' H') as (j & A & B). exists j. split; [exact A|]. apply nth_snoc. exact B.
    - exact U2.
    - intros t n j. rewrite Tab1. apply TI.
    - exact NE. }
  unfold addSearchFields. cbn [h_key h_kind h_id h]. rewrite (ne_match key) by exact NK. cbv iota.
  assert (DEC : {t | In t (tablesOf k) /\ find key (tab t s) <> None} + {forall t, In t (tablesOf k) -> find key (tab t s) = None}).
  { induction (tablesOf k) as [|t l IH]; [right; intros t []|]. destruct (find key (tab t s)) eqn:E; [left; exists t; split; [left; reflexivity|congruence]|].
    destruct IH as [[t' [A B]]|IH]; [left; exists t'; split; [right; exact A|exact B]|right]. intros t' [<-|H]; auto. }
  assert (DUP : forall t, In t (tablesOf k) -> find key (tab t s) <> None -> duplicate L D k key).
  { intros t Ht F. destruct (find key (tab t s)) as [j|] eqn:E; [|congruence]. apply TI in E. destruct E as (h' & A & B & C & E). exists h', (askedOf t). split; [split; [exact A|split; [apply tablesOf_serves; exact C|exact E]]|apply tablesOf_serves; exact Ht]. }
  assert (UND : duplicate L D k key -> exists t, In t (tablesOf k) /\ find key (tab t s) <> None).
  { intros (h' & asked & (A & B & C) & E). exists (getMap asked). split; [apply serves_table; exact E|]. destruct (U1 h' A) as (j & J & _). assert (F : find key (tab (getMap asked) s) = Some j) by (apply TI; exists h'; split; [exact A|split; [exact J|split; [apply serves_table; exact B|exact C]]]). congruence. }
  destruct DEC as [[t [Ht F]]|NF].
  - pose proof (DUP t Ht F) as DU. assert (ONE : tablesOf k = [t]) by (destruct k; cbn in Ht; try (destruct Ht as [<-|[]]; reflexivity); try tauto; exfalso; apply SV; try exact DU; [left|right]; reflexivity).
    rewrite (addToTables_dup (tablesOf k) key i s1 t ONE) by (rewrite Tab1; exact F). exists s1, true. split; [reflexivity|]. split; [tauto|]. exact Inv1.
  - assert (ND : ~ duplicate L D k key) by (intros DU; destruct (UND DU) as (t & A & B); auto).
    destruct (addToTables_new D key i (tablesOf k) s1) as (s2 & R & R1 & R2 & R3 & R4); [exact AI|apply tablesOf_nodup| |].
    { intros t n Ht Ln. rewrite Tab1. destruct (find n (tab t s)) as [j|] eqn:E; [|reflexivity]. apply TI in E. destruct E as (h' & A & B & C & E). exfalso. apply ND. exists h', (askedOf t).
      split; [split; [exact A|split; [apply tablesOf_serves; exact C|eapply linked_trans; [exact E|apply linked_sym; exact Ln]]]|apply tablesOf_serves; exact Ht]. }
    rewrite R. eexists _, false. split; [reflexivity|]. split; [split; [discriminate|contradiction]|]. cbn [liveAfter]. fold h.
    set (s3 := setUids (emplaceUid id i (uids s2)) s2).
    assert (Tab3 : forall t, tab t s3 = tab t s2) by (intros []; reflexivity).
    assert (FU : forall x, findUid x (uids s3) = match findUid x (uids s) with Some j => Some j | None => if handleEq id x then Some i else None end).
    { intros x. unfold s3. cbn [uids setUids]. rewrite findUid_emplace, R2. reflexivity. }
    assert (OLD : forall h', In h' L -> findUid (h_id h') (uids s3) = findUid (h_id h') (uids s)) by (intros h' H'; rewrite FU; destruct (U1 h' H') as (j & -> & _); reflexivity).
    assert (FH : findUid id (uids s3) = Some i) by (rewrite FU, Fid, handleEq_refl; reflexivity).
    split; [|split; [|split; [|split]]].
    + intros h' H'. apply in_app_or in H'. destruct H' as [H'|[<-|[]]].
      * destruct (U1 h' H') as (j & A & B). exists j. rewrite OLD by exact H'. split; [exact A|]. unfold s3. cbn [handles setUids]. rewrite R1. apply nth_snoc. exact B.
      * exists i. split; [exact FH|]. unfold s3. cbn [handles setUids]. rewrite R1. unfold s1. cbn [handles setHandles]. rewrite nth_error_app2 by (unfold i; lia). replace (i - length (handles s))%nat with O by (unfold i; lia). reflexivity.
    + intros x j E. rewrite FU in E. destruct (findUid x (uids s)) as [j'|] eqn:E'.
      * destruct (U2 _ _ E') as (h' & A & B). exists h'. split; [apply in_or_app; left; exact A|exact B].
      * destruct (handleEq id x) eqn:B; [|discriminate]. apply handleEq_iff in B. exists h. split; [apply in_or_app; right; left; reflexivity|exact B].
    + intros t n j. rewrite Tab3, R4, Tab1, TI. split.
      * intros [(A & B & ->)|(h' & A & B & C)].
        -- exists h. split; [apply in_or_app; right; left; reflexivity|]. split; [exact FH|]. split; assumption.
        -- exists h'. split; [apply in_or_app; left; exact A|]. rewrite OLD by exact A. split; assumption.
      * intros (h' & A & B & C & E). apply in_app_or in A. destruct A as [A|[<-|[]]].
        -- right. exists h'. rewrite OLD in B by exact A. auto.
        -- left. cbn [h_id h_kind h_key h] in *. rewrite FH in B. split; [exact C|]. split; [exact E|congruence].
    + intros h' H'. apply in_app_or in H'. destruct H' as [H'|[<-|[]]]; [apply NE; exact H'|split; assumption].
    + unfold s3. cbn [aliases setUids]. rewrite R3. exact AI.
Qed.

(** *** removal *)
Lemma length_setNth {A} i (x : A) l : length (setNth i x l) = length l.
Proof. revert i. induction l as [|y l IH]; intros [|i]; cbn; auto. Qed.
Lemma nth_setNth {A} i j (x : A) l : nth_error (setNth i x l) j = if Nat.eqb i j then match nth_error l j with Some _ => Some x | None => None end else nth_error l j.
Proof.
  revert i j. induction l as [|y l IH]; intros [|i] [|j]; cbn; try reflexivity.
  - destruct (Nat.eqb i j); reflexivity.
  - apply IH.
Qed.
Lemma eraseTables_spec key : forall l s, handles (eraseTables l key s) = handles s /\ uids (eraseTables l key s) = uids s /\ aliases (eraseTables l key s) = aliases s /\
  forall t x, find x (tab t (eraseTables l key s)) = if existsb (fun t' => if table_dec t t' then true else false) l && beq key x then None else find x (tab t s).
Proof.
  induction l as [|t' l IH]; intros s; [repeat split|]. unfold eraseTables. cbn [fold_left]. fold (eraseTables l key (setTab t' (erase key (tab t' s)) s)).
  destruct (IH (setTab t' (erase key (tab t' s)) s)) as (A & B & C & E). destruct (setTab_frame t' (erase key (tab t' s)) s) as (F1 & F2 & F3). split; [congruence|]. split; [congruence|]. split; [congruence|].
  intros t x. rewrite E, tab_setTab. cbn [existsb]. destruct (table_dec t t') as [->|]; [|reflexivity]. rewrite find_erase. cbn [orb andb]. destruct (beq key x); [rewrite andb_true_r; destruct (existsb _ l); reflexivity|]. rewrite andb_false_r. reflexivity.
Qed.
Lemma removeTables_in k t : existsb (fun t' => if table_dec t t' then true else false) (removeTables k) = true <-> In t (tablesOf k).
Proof. destruct k, t; cbn; repeat (destruct (table_dec _ _); try congruence); cbn; intuition congruence. Qed.
Lemma in_filter_id L (id : Z * Z) h : In h (filter (fun h => negb (handleEq (h_id h) id)) L) <-> In h L /\ h_id h <> id.
Proof. rewrite filter_In, negb_true_iff, <- not_true_iff_false, handleEq_iff. reflexivity. Qed.
Lemma remove_inv s L D id : Inv s L D -> (forall h, In h L -> h_id h = id -> alone D (h_key h)) ->
  Inv (removeHandle id s) (filter (fun h => negb (handleEq (h_id h) id)) L) D /\ length (handles (removeHandle id s)) = length (handles s) /\
  forall x, x <> id -> findUid x (uids (removeHandle id s)) = findUid x (uids s).
Proof.
  intros I AL. pose proof I as (U1 & U2 & TI & NE & AI). unfold removeHandle. destruct (findUid id (uids s)) as [i|] eqn:F.
  2:{ split; [|split; reflexivity]. apply (inv_ext s L); [|exact I]. intros h. rewrite in_filter_id. split; [|tauto]. intros H. split; [exact H|]. intros E. destruct (U1 h H) as (j & J & _). congruence. }
  destruct (U2 id i F) as (h & Hh & Eid). destruct (U1 h Hh) as (i' & F' & N'). rewrite Eid, F in F'. assert (i' = i) by congruence. subst i'. clear F'.
  assert (NTH : nth i (handles s) blank = h) by (apply nth_error_nth; exact N'). rewrite NTH. destruct (NE h Hh) as [NK NU]. rewrite (ne_match (h_key h)) by exact NK.
  set (s1 := setUids (eraseUid id (uids s)) s). destruct (eraseTables_spec (h_key h) (removeTables (h_kind h)) s1) as (A & B & C & E). set (s2 := eraseTables (removeTables (h_kind h)) (h_key h) s1) in *.
  set (s3 := setHandles (setNth i blank (handles s2)) s2). assert (Tab3 : forall t, tab t s3 = tab t s2) by (intros []; reflexivity). assert (Tab1 : forall t, tab t s1 = tab t s) by (intros []; reflexivity).
  assert (FU : forall x, findUid x (uids s3) = if handleEq id x then None else findUid x (uids s)).
  { intros x. unfold s3. cbn [uids setHandles]. rewrite B. unfold s1. cbn [uids setUids]. apply findUid_erase. }
  assert (NEQ : forall x, x <> id -> findUid x (uids s3) = findUid x (uids s)).
  { intros x N. rewrite FU. destruct (handleEq id x) eqn:Q; [|reflexivity]. apply handleEq_iff in Q. congruence. }
  split; [|split; [unfold s3; cbn [handles setHandles]; rewrite length_setNth, A; reflexivity|exact NEQ]].
  split; [|split; [|split; [|split]]].
  - intros h' H'. apply in_filter_id in H'. destruct H' as [H' N]. destruct (U1 h' H') as (j & J & NJ). exists j. rewrite NEQ by exact N. split; [exact J|]. unfold s3. cbn [handles setHandles]. rewrite nth_setNth, A. cbn [handles s1 setUids].
    destruct (Nat.eqb_spec i j) as [<-|]; [congruence|exact NJ].
  - intros x j X. rewrite FU in X. destruct (handleEq id x) eqn:Q; [discriminate|]. destruct (U2 x j X) as (h' & H' & E'). exists h'. split; [|exact E']. apply in_filter_id. split; [exact H'|]. rewrite E'. intros ->. rewrite handleEq_refl in Q. discriminate.
  - intros t n j. rewrite Tab3, E, Tab1. destruct (existsb _ (removeTables (h_kind h)) && beq (h_key h) n) eqn:Q.
    + apply andb_true_iff in Q. destruct Q as [Q1 Q2]. apply removeTables_in in Q1. apply beq_eq in Q2. split; [discriminate|]. intros (h' & H' & F' & T' & L'). exfalso. apply in_filter_id in H'. destruct H' as [H' N].
      apply N. rewrite <- Eid. f_equal. eapply (inv_exclusive s L D); eauto. rewrite Q2. exact L'.
    + rewrite TI. split.
      * intros (h' & H' & F' & T' & L'). destruct (handleEq (h_id h') id) eqn:Q'.
        -- apply handleEq_iff in Q'. assert (h' = h) by (eapply (inv_unique s L D); eauto; congruence). subst h'. exfalso. apply (AL h Hh Eid) in L'. subst n. rewrite beq_refl, andb_true_r in Q. apply removeTables_in in T'. congruence.
        -- assert (N : h_id h' <> id) by (intros Z; rewrite Z, handleEq_refl in Q'; discriminate). exists h'. split; [apply in_filter_id; auto|]. rewrite NEQ by exact N. auto.
      * intros (h' & H' & F' & T' & L'). apply in_filter_id in H'. destruct H' as [H' N]. exists h'. rewrite NEQ in F' by exact N. auto.
  - intros h' H'. apply in_filter_id in H'. apply NE. tauto.
  - unfold s3. cbn [aliases setHandles]. rewrite C. exact AI.
Qed.
Lemma removeFed_inv s L D fed : Inv s L D -> (forall h, In h L -> fst (h_id h) = fed -> alone D (h_key h)) ->
  Inv (removeFederateHandles fed s) (filter (fun h => negb (fst (h_id h) =? fed)%Z) L) D /\
  forall h, In h L -> fst (h_id h) <> fed -> findUid (h_id h) (uids (removeFederateHandles fed s)) = findUid (h_id h) (uids s).
Proof.
  intros I AL. unfold removeFederateHandles. set (body := fun s i => _).
  assert (G : forall l s L, Inv s L D -> (forall h, In h L -> fst (h_id h) = fed -> alone D (h_key h)) ->
             exists L', Inv (fold_left body l s) L' D /\ (forall h, In h L' -> In h L) /\ (forall h, In h L -> fst (h_id h) <> fed -> In h L') /\
                        (forall h i, In h L' -> fst (h_id h) = fed -> findUid (h_id h) (uids s) = Some i -> ~ In i l) /\
                        forall x, fst x <> fed -> findUid x (uids (fold_left body l s)) = findUid x (uids s)).
  { clear s L I AL. induction l as [|j l IH]; intros s L I AL.
    - exists L. cbn [fold_left]. split; [exact I|]. split; [auto|]. split; [auto|]. split; [intros h i _ _ _ []|reflexivity].
    - cbn [fold_left]. destruct (Z.eqb_spec (fst (h_id (nth j (handles s) blank))) fed) as [E|E].
      + assert (EB : body s j = removeHandle (h_id (nth j (handles s) blank)) s) by (unfold body; rewrite (proj2 (Z.eqb_eq _ _) E); reflexivity). rewrite EB.
        set (id := h_id (nth j (handles s) blank)) in *. destruct (remove_inv s L D id I) as (I' & LEN & NEQ); [intros h H1 H2; apply AL; [exact H1|]; rewrite H2; exact E|].
        destruct (IH _ _ I') as (L' & I'' & Sub & Keep & Gone & Same); [intros h H; apply in_filter_id in H; apply AL; tauto|]. exists L'. split; [exact I''|]. split; [|split; [|split]].
        * intros h H. apply Sub in H. apply in_filter_id in H. tauto.
        * intros h H N. apply Keep; [|exact N]. apply in_filter_id. split; [exact H|]. congruence.
        * intros h i H F U [<-|Hi].
          -- apply Sub in H. apply in_filter_id in H. destruct H as [H1 H2]. destruct (proj1 I h H1) as (i' & A & B). assert (i' = j) by congruence. subst i'. apply H2. unfold id. rewrite (nth_error_nth _ _ blank B). reflexivity.
          -- apply (Gone h i H F); [|exact Hi]. rewrite NEQ; [exact U|]. apply Sub in H. apply in_filter_id in H. tauto.
        * intros x N. rewrite Same by exact N. apply NEQ. congruence.
      + assert (EB : body s j = s) by (unfold body; rewrite (proj2 (Z.eqb_neq _ _) E); reflexivity). rewrite EB.
        destruct (IH _ _ I AL) as (L' & I'' & Sub & Keep & Gone & Same). exists L'. split; [exact I''|]. split; [exact Sub|]. split; [exact Keep|]. split; [|exact Same].
        intros h i H F U [<-|Hi]; [|exact (Gone h i H F U Hi)]. apply Sub in H. destruct (proj1 I h H) as (i' & A & B). assert (i' = j) by congruence. subst i'. apply E. rewrite (nth_error_nth _ _ blank B). exact F. }
  destruct (G (seq 0 (length (handles s))) s L I AL) as (L' & I' & Sub & Keep & Gone & Same). split; [|intros h H N; apply Same; exact N].
  apply (inv_ext _ L'); [|exact I']. intros h. rewrite filter_In, negb_true_iff, Z.eqb_neq. split; [|intros [A B]; auto].
  intros H. split; [apply Sub; exact H|]. intros F. destruct (proj1 I h (Sub h H)) as (i & A & B). apply (Gone h i H F A). apply in_seq. assert (i < length (handles s))%nat by (apply nth_error_Some; congruence). lia.
Qed.

(** *** aliases *)
Definition sameFrame (s s' : hm) : Prop := handles s' = handles s /\ uids s' = uids s /\ aliases s' = aliases s.
Section Merge.
Variables (G : name -> Prop) (val : table -> option nat) (s0 : hm).
(** every table: unchanged outside the group, and in the group either unchanged or the common value *)
Definition good (s : hm) : Prop :=
  (forall t z, ~ G z -> find z (tab t s) = find z (tab t s0)) /\ (forall t z, G z -> find z (tab t s) = None \/ find z (tab t s) = val t) /\
  (forall t z i, find z (tab t s0) = Some i -> find z (tab t s) = Some i).
Definition grows (s s' : hm) : Prop := forall t z i, find z (tab t s) = Some i -> find z (tab t s') = Some i.
Hypothesis G_dec : forall z, G z \/ ~ G z.
Lemma tableAlias_good x y m v : (find x m = None \/ find x m = v) -> (find y m = None \/ find y m = v) ->
  exists m', addTableAlias x y m = (m', false) /\ find x m' = find y m' /\ (forall z, z <> x -> z <> y -> find z m' = find z m) /\ (forall z i, find z m = Some i -> find z m' = Some i) /\
    forall z, z = x \/ z = y -> find z m' = None \/ find z m' = v.
Proof.
  intros X Y. unfold addTableAlias. destruct (find x m) as [i|] eqn:Ex.
  - destruct (find y m) as [j|] eqn:Ey.
    + destruct X as [X|X]; [discriminate|]. destruct Y as [Y|Y]; [discriminate|]. assert (i = j) by congruence. subst j. exists m. rewrite Nat.eqb_refl. split; [reflexivity|]. split; [congruence|]. split; [reflexivity|]. split; [auto|]. intros z [->| ->]; right; congruence.
    + assert (N : beq y x = false) by (apply beq_neq; congruence). exists (emplace y i m). split; [reflexivity|]. rewrite !find_emplace, Ex, Ey, beq_refl. split; [reflexivity|]. split; [|split].
      * intros z N1 N2. rewrite find_emplace, (proj2 (beq_neq y z)) by congruence. destruct (find z m); reflexivity.
      * intros z k E. rewrite find_emplace, E. reflexivity.
      * destruct X as [X|X]; [discriminate|]. intros z [->| ->]; right; rewrite find_emplace, ?Ex, ?Ey, ?beq_refl; congruence.
  - destruct (find y m) as [j|] eqn:Ey.
    + assert (N : beq x y = false) by (apply beq_neq; congruence). exists (emplace x j m). split; [reflexivity|]. rewrite !find_emplace, Ex, Ey, beq_refl. split; [reflexivity|]. split; [|split].
      * intros z N1 N2. rewrite find_emplace, (proj2 (beq_neq x z)) by congruence. destruct (find z m); reflexivity.
      * intros z k E. rewrite find_emplace, E. reflexivity.
      * destruct Y as [Y|Y]; [discriminate|]. intros z [->| ->]; right; rewrite find_emplace, ?Ex, ?Ey, ?beq_refl; congruence.
    + exists m. split; [reflexivity|]. split; [congruence|]. split; [reflexivity|]. split; [auto|]. intros z [->| ->]; left; assumption.
Qed.
Lemma tableAliases_good x y : G x -> G y -> forall l s, good s ->
  exists s', addTableAliases l x y s = (s', false) /\ sameFrame s s' /\ good s' /\ grows s s' /\ forall t, In t l -> find x (tab t s') = find y (tab t s').
Proof.
  intros Gx Gy. induction l as [|t l IH]; intros s (A & B & C); cbn [addTableAliases].
  - exists s. split; [reflexivity|]. split; [repeat split|]. split; [split; [exact A|split; assumption]|]. split; [intros t z i H; exact H|intros t []].
  - destruct (tableAlias_good x y (tab t s) (val t) (B t x Gx) (B t y Gy)) as (m & R & E & O & M & V). rewrite R.
    destruct (setTab_frame t m s) as (F1 & F2 & F3). destruct (IH (setTab t m s)) as (s' & R' & (S1 & S2 & S3) & G' & W' & Q').
    { split; [|split].
      - intros t' z N. rewrite tab_setTab. destruct (table_dec t' t) as [->|]; [|apply A; exact N]. rewrite O; [apply A; exact N| |]; intros ->; contradiction.
      - intros t' z Gz. rewrite tab_setTab. destruct (table_dec t' t) as [->|]; [|apply B; exact Gz]. destruct (name_dec z x) as [->|Nx]; [apply V; auto|]. destruct (name_dec z y) as [->|Ny]; [apply V; auto|]. rewrite O by assumption. apply B. exact Gz.
      - intros t' z i H. rewrite tab_setTab. destruct (table_dec t' t) as [->|]; [|apply C; exact H]. apply M, C, H. }
    assert (W0 : grows s (setTab t m s)) by (intros t' z i H; rewrite tab_setTab; destruct (table_dec t' t) as [->|]; [apply M; exact H|exact H]).
    exists s'. split; [exact R'|]. split; [split; [congruence|split; congruence]|]. split; [exact G'|]. split; [intros t' z i H; apply W', W0, H|].
    intros t' [<-|H]; [|apply Q'; exact H]. destruct (find x (tab t s')) as [i|] eqn:Ex.
    + destruct G' as (A' & B' & C'). destruct (find x (tab t (setTab t m s))) as [i'|] eqn:E1.
      * assert (find x (tab t s') = Some i') by (apply W'; exact E1). rewrite tab_setTab in E1. destruct (table_dec t t); [|congruence]. rewrite E in E1. assert (find y (tab t s') = Some i') by (apply W'; rewrite tab_setTab; destruct (table_dec t t); [exact E1|congruence]). congruence.
      * (* a later table does not touch this one unless it is listed again *)
        destruct (in_dec table_dec t l) as [It|It]; [symmetry; rewrite <- Ex; symmetry; apply Q'; exact It|]. exfalso.
        assert (T : tab t s' = tab t (setTab t m s)); [|congruence]. clear - R' It. revert R'. generalize (setTab t m s). revert It. induction l as [|t1 l IHl]; intros It s1 R'; cbn [addTableAliases] in R'; [congruence|].
        destruct (addTableAlias x y (tab t1 s1)) as [m1 [|]]; [discriminate|]. apply IHl in R'; [|intros H; apply It; right; exact H]. rewrite R', tab_setTab. destruct (table_dec t t1) as [->|]; [exfalso; apply It; left; reflexivity|reflexivity].
    + destruct (find y (tab t s')) as [i|] eqn:Ey; [|reflexivity]. exfalso. destruct (in_dec table_dec t l) as [It|It]; [rewrite Q' in Ex by exact It; congruence|].
      assert (T : tab t s' = tab t (setTab t m s)).
      { clear - R' It. revert R'. generalize (setTab t m s). revert It. induction l as [|t1 l IHl]; intros It s1 R'; cbn [addTableAliases] in R'; [congruence|].
        destruct (addTableAlias x y (tab t1 s1)) as [m1 [|]]; [discriminate|]. apply IHl in R'; [|intros H; apply It; right; exact H]. rewrite R', tab_setTab. destruct (table_dec t t1) as [->|]; [exfalso; apply It; left; reflexivity|reflexivity]. }
      rewrite T, tab_setTab in Ex, Ey. destruct (table_dec t t); congruence.
Qed.
Lemma allTables t : In t aliasTables.
Proof. destruct t; cbn; auto. Qed.
Lemma cascade_good skip i : G i -> forall l s, (forall o, In o l -> G o) -> good s ->
  exists s', cascadeAliases l skip i s = (s', false) /\ sameFrame s s' /\ good s' /\ grows s s' /\
    forall o t x, In o l -> o <> skip -> find i (tab t s) = Some x -> find o (tab t s') = Some x.
Proof.
  intros Gi. induction l as [|o l IH]; intros s GL GS; cbn [cascadeAliases].
  - exists s. split; [reflexivity|]. split; [repeat split|]. split; [exact GS|]. split; [intros t z x H; exact H|intros o t x []].
  - destruct (beq o skip) eqn:B.
    + apply beq_eq in B. destruct (IH s) as (s' & R & F & G' & W & Q); [intros; apply GL; right; assumption|exact GS|]. exists s'. split; [exact R|]. split; [exact F|]. split; [exact G'|]. split; [exact W|].
      intros o' t x [<-|H] N; [congruence|]. apply Q; assumption.
    + destruct (tableAliases_good o i (GL o (or_introl eq_refl)) Gi aliasTables s GS) as (s1 & R1 & (F1 & F2 & F3) & G1 & W1 & Q1). rewrite R1.
      destruct (IH s1) as (s' & R & (F1' & F2' & F3') & G' & W & Q); [intros; apply GL; right; assumption|exact G1|]. exists s'. split; [exact R|]. split; [split; [congruence|split; congruence]|]. split; [exact G'|]. split; [intros t z x H; apply W, W1, H|].
      intros o' t x [<-|H] N E; [|apply Q; try assumption; apply W1; exact E]. apply W. rewrite Q1 by apply allTables. apply W1. exact E.
Qed.
End Merge.
Lemma alias_inv s L D i a : Inv s L D -> allowed L D (Alias i a) ->
  exists s', addAlias i a s = AOk s' false /\ Inv s' L ((i, a) :: D) /\ handles s' = handles s /\ uids s' = uids s.
Proof.
  intros I AL. pose proof I as (U1 & U2 & TI & NE & AI).
  set (D' := (i, a) :: D).
  assert (FEQ : forall t u v, linked D u v -> find u (tab t s) = find v (tab t s)).
  { intros t u v H. assert (X : forall x, find u (tab t s) = Some x <-> find v (tab t s) = Some x).
    { intros x. rewrite !TI. split; intros (h & A & B & C & E); exists h; (split; [exact A|split; [exact B|split; [exact C|]]]); eapply linked_trans; try exact E; [exact H|apply linked_sym; exact H]. }
    destruct (find u (tab t s)) as [x|] eqn:E; [symmetry; apply X; reflexivity|]. destruct (find v (tab t s)) as [y|] eqn:E'; [|reflexivity]. apply X; reflexivity. }
  assert (KN : forall t n x, find n (tab t s) = Some x -> exists h, known L D (askedOf t) n h).
  { intros t n x H. apply TI in H. destruct H as (h & A & B & C & E). exists h. split; [exact A|]. split; [apply tablesOf_serves; exact C|exact E]. }
  assert (NC : forall t x y, find i (tab t s) = Some x -> find a (tab t s) = Some y -> x = y).
  { intros t x y X Y. cbn [allowed] in AL. destruct AL as [H|[[_ H]|[_ H]]].
    - rewrite (FEQ t _ _ H) in X. congruence.
    - destruct (KN t i x X) as (h & Hh), (KN t a y Y) as (h' & Hh'). destruct (H _ _ _ Hh Hh').
    - destruct (KN t a y Y) as (h' & Hh'). destruct (H _ _ Hh'). }
  set (G := fun z => linked D i z \/ linked D a z).
  set (val := fun t => match find i (tab t s) with Some x => Some x | None => find a (tab t s) end).
  assert (GV : forall t z, G z -> find z (tab t s) = None \/ find z (tab t s) = val t).
  { intros t z [H|H]; rewrite <- (FEQ t _ _ H); unfold val; [destruct (find i (tab t s)); auto|]. destruct (find i (tab t s)) eqn:E; [|auto]. destruct (find a (tab t s)) eqn:E'; [|auto]. right. f_equal. symmetry. eapply NC; eassumption. }
  assert (NAMES : exists al' c, addAliasName (fuelFor (aliases s)) [] (aliases s) i a = Done al' c /\ aliasInv al' D' /\
                    (linked D i a \/ alone D i /\ ((exists o, linked D a o /\ o <> a) -> c = true) \/ alone D a /\ (forall t, find a (tab t s) = None))).
  { cbn [allowed] in AL. destruct (name_dec i a) as [->|Nia].
    - exists (aliases s), false. split; [apply (present (aliases s) D); [exact AI|apply linked_refl|unfold fuelFor; lia]|]. split; [|left; apply linked_refl].
      destruct AI as (A1 & A2 & A3). split; [|split; assumption]. intros u v. rewrite A1. unfold D'. rewrite linked_add. split; [tauto|]. intros [N [H|[[H1 H2]|[H1 H2]]]]; (split; [exact N|]); [exact H| |]; eapply linked_trans; eassumption.
    - destruct AL as [H|[[H HC]|[H HC]]].
      + exists (aliases s), false. split; [apply (present (aliases s) D); [exact AI|exact H|unfold fuelFor; lia]|]. split; [|left; exact H].
        destruct AI as (A1 & A2 & A3). split; [|split; assumption]. intros u v. rewrite A1. unfold D'. rewrite linked_add. split; [tauto|]. intros [N [K|[[H1 H2]|[H1 H2]]]]; (split; [exact N|]); [exact K| |].
        * eapply linked_trans; [exact H1|]. eapply linked_trans; eassumption.
        * eapply linked_trans; [exact H1|]. eapply linked_trans; [apply linked_sym; exact H|exact H2].
      + destruct (joins (aliases s) D i a a i AI (or_intror (conj eq_refl eq_refl)) (not_eq_sym Nia) H) as (al' & c & R & A & C). exists al', c. split; [exact R|]. split; [exact A|]. right. left. split; assumption.
      + destruct (joins (aliases s) D i a i a AI (or_introl (conj eq_refl eq_refl)) Nia H) as (al' & c & R & A & C). exists al', c. split; [exact R|]. split; [exact A|]. right. right. split; [exact H|].
        intros t. destruct (find a (tab t s)) as [x|] eqn:E; [|reflexivity]. destruct (KN t a x E) as (h & Hh). destruct (HC _ _ Hh). }
  destruct NAMES as (al' & c & R & AI' & CASES).
  set (s1 := setAliases al' s). assert (T1 : forall t, tab t s1 = tab t s) by (intros []; reflexivity).
  assert (Gi : G i) by (left; apply linked_refl). assert (Ga : G a) by (right; apply linked_refl).
  assert (GD : forall z, G z <-> linked D' i z).
  { intros z. unfold G, D'. rewrite linked_add. split; [intros [H|H]; [left; exact H|right; left; split; [apply linked_refl|exact H]]|]. intros [H|[[_ H]|[_ H]]]; auto. }
  assert (G1 : good G val s s1) by (split; [|split]; intros; rewrite T1 in *; auto).
  assert (CG : exists s2, (if c then cascadeAliases (vecOf i al') a i s1 else (s1, false)) = (s2, false) /\ sameFrame s1 s2 /\ good G val s s2 /\ grows s1 s2 /\
            (c = true -> forall o t x, In o (vecOf i al') -> o <> a -> find i (tab t s1) = Some x -> find o (tab t s2) = Some x)).
  { destruct c.
    - destruct (cascade_good G val s a i Gi (vecOf i al') s1) as (s2 & A & B & C & E & F); [|exact G1|].
      + intros o Ho. apply GD. apply AI' in Ho. tauto.
      + exists s2. auto.
    - exists s1. split; [reflexivity|]. split; [repeat split|]. split; [exact G1|]. split; [intros t z x H; exact H|discriminate]. }
  destruct CG as (s2 & R2 & (F2h & F2u & F2a) & G2 & W2 & Q2).
  destruct (tableAliases_good G val s i a Gi Ga aliasTables s2 G2) as (s3 & R3 & (F3h & F3u & F3a) & G3 & W3 & Q3).
  assert (H1 : addAliasHalf i a a s = AOk s3 false).
  { unfold addAliasHalf. rewrite R. fold s1. rewrite R2, R3. reflexivity. }
  assert (A3 : aliases s3 = al') by (rewrite F3a, F2a; reflexivity).
  assert (R4 : addAliasName (fuelFor (aliases s3)) [] (aliases s3) a i = Done al' false).
  { rewrite A3. apply (present al' D'); [exact AI'| |unfold fuelFor; lia]. apply linked_sym, GD, Ga. }
  assert (E3 : setAliases al' s3 = s3) by (rewrite <- A3; destruct s3; reflexivity).
  destruct (tableAliases_good G val s a i Ga Gi aliasTables s3 G3) as (s4 & R5 & (F4h & F4u & F4a) & (G4a & G4b & G4c) & W4 & Q4).
  exists s4. assert (H2 : addAliasHalf a i a s3 = AOk s4 false) by (unfold addAliasHalf; rewrite R4; cbv iota; rewrite E3, R5; reflexivity).
  split; [unfold addAlias; rewrite H1; exact H2|].
  assert (Fh : handles s4 = handles s) by (rewrite F4h, F3h, F2h; reflexivity). assert (Fu : uids s4 = uids s) by (rewrite F4u, F3u, F2u; reflexivity). assert (Fa : aliases s4 = al') by congruence.
  split; [|split; assumption].
  assert (FINAL : forall t z, G z -> find z (tab t s4) = val t).
  { intros t z Gz. pose proof (Q4 t (allTables t)) as Qt. destruct (val t) as [x|] eqn:V; [|destruct (G4b t z Gz); congruence]. unfold val in V.
    destruct (find i (tab t s)) as [x'|] eqn:Fi.
    - assert (x' = x) by congruence. subst x'. assert (Zi : find i (tab t s4) = Some x) by (apply G4c; exact Fi). assert (Za : find a (tab t s4) = Some x) by congruence.
      destruct Gz as [Lz|Lz]; [apply G4c; rewrite <- (FEQ t _ _ Lz); exact Fi|]. destruct (find a (tab t s)) as [y|] eqn:Ea; [apply G4c; rewrite <- (FEQ t _ _ Lz), Ea; f_equal; symmetry; eapply NC; eassumption|].
      destruct CASES as [H|[[H HC]|[H _]]]; [rewrite (FEQ t _ _ H) in Fi; congruence| |apply H in Lz; subst z; exact Za].
      destruct (name_dec z a) as [->|Nza]; [exact Za|]. apply W4, W3. apply Q2; [apply HC; exists z; auto| |exact Nza|rewrite T1; exact Fi]. apply AI'. split; [|apply GD; right; exact Lz].
      intros ->. rewrite (FEQ t _ _ Lz) in Ea. congruence.
    - assert (Za : find a (tab t s4) = Some x) by (apply G4c; exact V). assert (Zi : find i (tab t s4) = Some x) by congruence.
      destruct Gz as [Lz|Lz]; [|apply G4c; rewrite <- (FEQ t _ _ Lz); exact V]. destruct CASES as [H|[[H _]|[_ H]]]; [rewrite (FEQ t _ _ H) in Fi; congruence|apply H in Lz; subst z; exact Zi|rewrite H in V; discriminate]. }
  assert (GDEC : forall z, {G z} + {~ G z}).
  { intros z. destruct (in_dec name_dec z (i :: vecOf i al')) as [H|H]; [left|right].
    - apply GD. destruct H as [<-|H]; [apply linked_refl|apply AI' in H; tauto].
    - intros Hz. apply H. destruct (name_dec i z) as [->|N]; [left; reflexivity|right]. apply AI'. split; [congruence|]. apply GD. exact Hz. }
  assert (VAL : forall t x, val t = Some x <-> exists h, In h L /\ findUid (h_id h) (uids s) = Some x /\ In t (tablesOf (h_kind h)) /\ (linked D (h_key h) i \/ linked D (h_key h) a)).
  { intros t x. unfold val. split.
    - destruct (find i (tab t s)) as [x'|] eqn:Fi; intros V; [assert (x' = x) by congruence; subst x'; apply TI in Fi; destruct Fi as (h & A & B & C & E)|apply TI in V; destruct V as (h & A & B & C & E)]; exists h; auto.
    - intros (h & A & B & C & [E|E]).
      + assert (F : find i (tab t s) = Some x) by (apply TI; exists h; auto). rewrite F. reflexivity.
      + assert (F : find a (tab t s) = Some x) by (apply TI; exists h; auto). destruct (find i (tab t s)) as [x'|] eqn:Fi; [f_equal; eapply NC; eassumption|exact F]. }
  split; [|split; [|split; [|split]]].
  - rewrite Fh, Fu. exact U1.
  - rewrite Fu. exact U2.
  - intros t n x. rewrite Fu. destruct (GDEC n) as [Gn|Gn].
    + rewrite FINAL by exact Gn. rewrite VAL. assert (X : forall h, linked D' (h_key h) n <-> linked D (h_key h) i \/ linked D (h_key h) a).
      { intros h. apply GD in Gn. split.
        - intros H. assert (H' : linked D' (h_key h) i) by (eapply linked_trans; [exact H|apply linked_sym; exact Gn]). unfold D' in H'. rewrite linked_add in H'. tauto.
        - intros H. eapply linked_trans; [|exact Gn]. unfold D'. rewrite linked_add. destruct H as [H|H]; [left; exact H|right; right; split; [exact H|apply linked_refl]]. }
      split; intros (h & A & B & C & E); exists h; (split; [exact A|split; [exact B|split; [exact C|apply X; exact E]]]).
    + rewrite G4a by exact Gn. rewrite TI. assert (X : forall h, linked D' (h_key h) n <-> linked D (h_key h) n).
      { intros h. unfold D'. rewrite linked_add. split; [|tauto]. intros [H|[[_ H]|[_ H]]]; [exact H| |]; exfalso; apply Gn; unfold G; auto. }
      split; intros (h & A & B & C & E); exists h; (split; [exact A|split; [exact B|split; [exact C|apply X; exact E]]]).
  - exact NE.
  - rewrite Fa. exact AI'.
Qed.
Lemma reach_inv gen s L D : reach gen s L D -> Inv s L D.
Proof.
  induction 1 as [|s L D o s' thrown R IH A E]; [exact start_inv|]. destruct o as [id k key ty un|id|fed|i a]; cbn [linksAfter].
  - destruct (register_inv gen s L D id k key ty un IH A) as (s1 & th & E1 & _ & I1). assert (s1 = s' /\ th = thrown) as [-> ->] by (rewrite E1 in E; injection E; auto). exact I1.
  - cbn [doOp] in E. injection E as <- <-. apply remove_inv; assumption.
  - cbn [doOp] in E. injection E as <- <-. apply removeFed_inv; assumption.
  - destruct (alias_inv s L D i a IH A) as (s1 & E1 & I1 & _). cbn [doOp] in E. rewrite E1 in E. injection E as <- <-. exact I1.
Qed.
