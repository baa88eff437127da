(** * C27: interface names;  C28: aliases *)
From Coq Require Import ZArith Bool List Lia Relations.
From Verif Require Import HTime Action Interfaces InputSpec PropsInput Ids PropsIds Handles HandlesAlias HandlesInv.
Import ListNotations.
Open Scope Z_scope.

Section Registry.
Variable gen : kind -> nat -> name.
Variables (s : hm) (L : list info) (D : list (name * name)).
Hypothesis R : reach gen s L D.

(** After any history, a search by name and kind returns the interface which was registered under this name, or under a name
    connected with it by alias declarations, and was not removed since ... *)
Theorem C27_lookup_finds_the_interface n asked h : known L D asked n h -> exists i, getInterfaceHandle n asked s = Found i h.
Proof.
  intros (A & B & C). pose proof (reach_inv _ _ _ _ R) as (U1 & U2 & TI & NE & AI). destruct (U1 h A) as (i & F & N). exists i.
  unfold getInterfaceHandle. assert (E : find n (tab (getMap asked) s) = Some i) by (apply TI; exists h; auto using serves_table). rewrite E. unfold deref. rewrite N.
  destruct asked; try reflexivity; cbn in B; destruct (h_kind h); try discriminate; reflexivity.
Qed.
(** ... and nothing if there is no such interface *)
Theorem C27_lookup_of_unknown_name n asked : asked <> UNKNOWN -> (forall h, ~ known L D asked n h) -> getInterfaceHandle n asked s = Null.
Proof.
  intros NU H. pose proof (reach_inv _ _ _ _ R) as (U1 & U2 & TI & NE & AI). unfold getInterfaceHandle. destruct (find n (tab (getMap asked) s)) as [i|] eqn:E; [|reflexivity].
  apply TI in E. destruct E as (h & A & B & C & E). destruct (U1 h A) as (i' & F & N). assert (i' = i) by congruence. subst i'. unfold deref. rewrite N.
  specialize (H h). destruct asked; try congruence; cbn [getMap] in C; try (exfalso; apply H; split; [exact A|split; [apply (tablesOf_serves _ _) in C; exact C|exact E]]).
  - destruct (h_kind h) eqn:K; try reflexivity. exfalso. apply H. split; [exact A|]. rewrite K. split; [reflexivity|exact E].
  - destruct (h_kind h) eqn:K; try reflexivity. exfalso. apply H. split; [exact A|]. rewrite K. split; [reflexivity|exact E].
Qed.
(** There is at most one. *)
Theorem C27_names_are_unique n asked h h' : known L D asked n h -> known L D asked n h' -> h = h'.
Proof.
  intros H H'. destruct (C27_lookup_finds_the_interface _ _ _ H) as [i E], (C27_lookup_finds_the_interface _ _ _ H') as [i' E']. congruence.
Qed.
(** Registration fails exactly for a duplicate name, and every allowed operation is carried out (in particular the recursion
    over the aliases ends and no vector is changed while it is being read). *)
Theorem C27_duplicates_fail id k key ty un : allowed L D (Register id k key ty un) ->
  exists s' thrown, doOp gen (Register id k key ty un) s = AOk s' thrown /\ (thrown = true <-> duplicate L D k key).
Proof. intros A. destruct (register_inv gen s L D id k key ty un (reach_inv _ _ _ _ R) A) as (s' & th & E & X & _). exists s', th. auto. Qed.
(** A handle identifies the same interface, at the same index, as long as it is not removed, whatever else happens. *)
Theorem C27_handles_are_stable h : In h L -> exists i, findHandle (h_id h) s = Found i h /\ getHandleInfo (Z.of_nat i) s = Some h /\
  forall o s' thrown, allowed L D o -> doOp gen o s = AOk s' thrown -> In h (liveAfter L o thrown) -> findHandle (h_id h) s' = Found i h /\ getHandleInfo (Z.of_nat i) s' = Some h.
Proof.
  intros H. pose proof (reach_inv _ _ _ _ R) as I. pose proof I as (U1 & U2 & TI & NE & AI). destruct (U1 h H) as (i & F & N). exists i.
  assert (GEN : forall s', findUid (h_id h) (uids s') = Some i -> nth_error (handles s') i = Some h -> findHandle (h_id h) s' = Found i h /\ getHandleInfo (Z.of_nat i) s' = Some h).
  { intros s' F' N'. unfold findHandle, getHandleInfo, deref. rewrite F', N'. split; [reflexivity|]. assert (i < length (handles s'))%nat by (apply nth_error_Some; congruence).
    rewrite (proj2 (Z.leb_le 0 _)) by lia. rewrite (proj2 (Z.ltb_lt _ _)) by lia. cbn [andb]. rewrite Nat2Z.id. exact N'. }
  destruct (GEN s F N) as [G1 G2]. split; [exact G1|]. split; [exact G2|]. intros o s' thrown A E K.
  assert (R' : reach gen s' (liveAfter L o thrown) (linksAfter D o)) by (eapply reach_op; eassumption). destruct (reach_inv _ _ _ _ R') as (U1' & _). destruct (U1' h K) as (i' & F' & N').
  assert (i' = i); [|subst i'; apply GEN; assumption]. enough (X : findUid (h_id h) (uids s') = findUid (h_id h) (uids s)) by congruence. clear - I A E K H F.
  destruct o as [id k key ty un|id|fed|x y].
  - pose proof I as (U1 & U2 & TI & NE & AI). destruct A as (NK & NU & NI & SV). cbn [doOp] in E. unfold addHandle in E.
    match type of E with (let '(_, _) := addSearchFields ?hh ?ii ?ss in _) = _ => set (h1 := hh) in *; set (i1 := ii) in *; set (s1 := ss) in * end.
    assert (X : forall l sa sb b, addToTables l (h_key h1) i1 sa = (sb, b) -> uids sb = uids sa).
    { induction l as [|t l IHl]; intros sa sb b Q; cbn [addToTables] in Q; [congruence|]. destruct (addFields (h_key h1) i1 (aliases sa) (tab t sa)) as [m [|]]; cbv beta iota zeta in Q.
      - injection Q as <- _. apply setTab_frame.
      - apply IHl in Q. rewrite Q. apply setTab_frame. }
    unfold addSearchFields in E. assert (NX : h_id h <> h_id h1) by (intros Q; apply (NI h H); rewrite Q; destruct id; reflexivity).
    destruct (h_key h1) as [|c0 k0] eqn:KE.
    + cbv beta iota zeta in E. injection E as <- _. cbn [uids setUids]. rewrite findUid_emplace. cbn [uids setHandles s1]. rewrite F. reflexivity.
    + cbv beta iota zeta in E. change (setHandles (handles s ++ [h1]) s) with s1 in E. destruct (addToTables (tablesOf (h_kind h1)) (c0 :: k0) i1 s1) as [sb [|]] eqn:Q; apply X in Q; cbv beta iota zeta in E; injection E as <- _; cbn [uids setUids]; rewrite ?findUid_emplace, Q; cbn [uids setHandles s1]; rewrite ?F; reflexivity.
  - cbn [doOp] in E. injection E as <- _. cbn [liveAfter] in K. apply in_filter_id in K. apply (remove_inv s L D id I A). tauto.
  - cbn [doOp] in E. injection E as <- _. cbn [liveAfter] in K. rewrite filter_In, negb_true_iff, Z.eqb_neq in K. apply (removeFed_inv s L D fed I A); tauto.
  - destruct (alias_inv s L D x y I A) as (s1 & E1 & _ & _ & F1). cbn [doOp] in E. rewrite E1 in E. injection E as <- _. rewrite F1. reflexivity.
Qed.
(** ** C28: names connected by alias declarations, in whatever order names and aliases appeared, give the same interface. *)
Theorem C28_aliases_give_the_same_interface a b asked : asked <> UNKNOWN -> linked D a b -> getInterfaceHandle a asked s = getInterfaceHandle b asked s.
Proof.
  intros NU LK. pose proof (reach_inv _ _ _ _ R) as (U1 & U2 & TI & NE & AI). unfold getInterfaceHandle.
  assert (X : forall x, find a (tab (getMap asked) s) = Some x <-> find b (tab (getMap asked) s) = Some x).
  { intros x. rewrite !TI. split; intros (h & A & B & C & E); exists h; (split; [exact A|split; [exact B|split; [exact C|]]]); eapply linked_trans; try exact E; [exact LK|apply linked_sym; exact LK]. }
  destruct (find a (tab (getMap asked) s)) as [x|].
  - rewrite (proj1 (X x) eq_refl). reflexivity.
  - destruct (find b (tab (getMap asked) s)) as [x|]; [|reflexivity]. pose proof (proj2 (X x) eq_refl). discriminate.
Qed.
(** A declaration of this kind never fails, and afterwards both names give the same interface. *)
Theorem C28_alias_takes_effect i a asked : asked <> UNKNOWN -> allowed L D (Alias i a) ->
  exists s', addAlias i a s = AOk s' false /\ getInterfaceHandle i asked s' = getInterfaceHandle a asked s' /\
    forall h, known L D asked i h \/ known L D asked a h -> exists x, getInterfaceHandle i asked s' = Found x h /\ getInterfaceHandle a asked s' = Found x h.
Proof.
  intros NU A. destruct (alias_inv s L D i a (reach_inv _ _ _ _ R) A) as (s' & E & _). exists s'. split; [exact E|].
  assert (R' : reach gen s' L ((i, a) :: D)) by exact (reach_op gen s L D (Alias i a) s' false R A E).
  assert (LK : linked ((i, a) :: D) i a) by (apply rst_step; left; reflexivity).
  assert (EQ : getInterfaceHandle i asked s' = getInterfaceHandle a asked s').
  { pose proof (reach_inv _ _ _ _ R') as (U1 & U2 & TI & NE & AI). unfold getInterfaceHandle.
    assert (X : forall x, find i (tab (getMap asked) s') = Some x <-> find a (tab (getMap asked) s') = Some x).
    { intros x. rewrite !TI. split; intros (h & A' & B & C & E'); exists h; (split; [exact A'|split; [exact B|split; [exact C|]]]); eapply linked_trans; try exact E'; [exact LK|apply linked_sym; exact LK]. }
    destruct (find i (tab (getMap asked) s')) as [x|].
    - rewrite (proj1 (X x) eq_refl). reflexivity.
    - destruct (find a (tab (getMap asked) s')) as [x|]; [|reflexivity]. pose proof (proj2 (X x) eq_refl). discriminate. }
  split; [exact EQ|]. intros h H. assert (K : known L ((i, a) :: D) asked i h).
  { destruct H as [(A1 & A2 & A3)|(A1 & A2 & A3)]; (split; [exact A1|split; [exact A2|]]); apply linked_add; [left; exact A3|right; right; split; [exact A3|apply linked_refl]]. }
  clear - R' K EQ. destruct K as (A & B & C). pose proof (reach_inv _ _ _ _ R') as (U1 & U2 & TI & NE & AI). destruct (U1 h A) as (x & F & N). exists x. rewrite <- EQ.
  enough (Q : getInterfaceHandle i asked s' = Found x h) by (split; exact Q). unfold getInterfaceHandle. assert (E : find i (tab (getMap asked) s') = Some x) by (apply TI; exists h; auto using serves_table). rewrite E. unfold deref. rewrite N.
  destruct asked; try reflexivity; cbn in B; destruct (h_kind h); try discriminate; reflexivity.
Qed.
(** The check made by a core before it registers an interface of one kind is exact. *)
Theorem C27_core_check_is_exact k key : key <> [] -> k <> UNKNOWN -> ~ several k -> (nameTaken key k s = true <-> duplicate L D k key).
Proof.
  intros NK NU NS. pose proof (reach_inv _ _ _ _ R) as (U1 & U2 & TI & NE & AI).
  assert (X : duplicate L D k key <-> find key (tab (getMap k) s) <> None).
  { split.
    - intros (h & asked & (A & B & C) & E). destruct (U1 h A) as (i & F & _). assert (Q : find key (tab (getMap k) s) = Some i); [|congruence]. apply TI. exists h. split; [exact A|]. split; [exact F|]. split; [|exact C].
      apply serves_table in B. apply serves_table in E. unfold several in NS. destruct k; try tauto; cbn in E; try congruence; destruct asked; cbn in B, E; intuition congruence.
    - destruct (find key (tab (getMap k) s)) as [i|] eqn:E; [|congruence]. intros _. apply TI in E. destruct E as (h & A & B & C & E). exists h, k. unfold several in NS.
      destruct k; try congruence; try tauto; cbn [getMap] in C; (split; [split; [exact A|split; [apply (tablesOf_serves _ _) in C; exact C|exact E]]|reflexivity]). }
  rewrite X. unfold nameTaken. rewrite (ne_match key) by exact NK. unfold getInterfaceHandle. destruct (find key (tab (getMap k) s)) as [i|] eqn:E; [|split; congruence]. split; [congruence|intros _].
  apply TI in E. destruct E as (h & A & B & C & E). destruct (U1 h A) as (i' & F & N). assert (i' = i) by congruence. subst i'. unfold deref. rewrite N. unfold several in NS. destruct k; try reflexivity; tauto.
Qed.
End Registry.
Print Assumptions C27_lookup_finds_the_interface.
Print Assumptions C27_lookup_of_unknown_name.
Print Assumptions C27_names_are_unique.
Print Assumptions C27_duplicates_fail.
Print Assumptions C27_handles_are_stable.
Print Assumptions C27_core_check_is_exact.
Print Assumptions C28_aliases_give_the_same_interface.
Print Assumptions C28_alias_takes_effect.
(** Removing an interface which has no aliases makes its name unknown. *)
Theorem C27_removed_is_unknown gen s L D h : reach gen s L D -> In h L -> alone D (h_key h) ->
  forall asked, serves (h_kind h) asked = true -> getInterfaceHandle (h_key h) asked (removeHandle (h_id h) s) = Null /\ findHandle (h_id h) (removeHandle (h_id h) s) = Null.
Proof.
  intros R H AL asked S'. assert (A : allowed L D (Remove (h_id h))).
  { intros h' H' E. assert (h' = h) by (eapply inv_unique; eauto using reach_inv). subst. exact AL. }
  pose proof (reach_op gen s L D (Remove (h_id h)) _ false R A eq_refl) as R'. cbn [liveAfter linksAfter] in R'. split.
  - apply (C27_lookup_of_unknown_name gen _ _ D R'); [destruct asked; try discriminate; cbn in S'; destruct (h_kind h); discriminate|].
    intros h' (K1 & K2 & K3). apply in_filter_id in K1. destruct K1 as [K1 N]. apply N. f_equal. eapply (inv_exclusive s L D h' h (getMap asked)); eauto using reach_inv, serves_table.
  - unfold findHandle. destruct (findUid (h_id h) (uids (removeHandle (h_id h) s))) as [i|] eqn:E; [|reflexivity]. destruct (reach_inv _ _ _ _ R') as (_ & U2 & _). destruct (U2 _ _ E) as (h' & K & Q). apply in_filter_id in K. tauto.
Qed.
Print Assumptions C27_removed_is_unknown.

(** ** what the code does outside these conditions *)
Definition noGen (k : kind) (n : nat) : name := [].
Definition runOps (l : list op) : aliasResult := fold_left (fun r o => match r with AOk s _ => doOp noGen o s | x => x end) l (AOk emptyHM false).
Definition pub (id : Z) (n : name) : op := Register (0x20000, id) PUBLICATION n [] [].
(** a removed interface is still found under its alias: the search returns a blank entry *)
Theorem C28_removed_interface_found_under_alias_refuted :
  exists s, runOps [pub 0 [1]; Alias [1] [2]; Remove (0x20000, 0)] = AOk s false /\ getInterfaceHandle [1] PUBLICATION s = Null /\ getInterfaceHandle [2] PUBLICATION s = Found 0 blank.
Proof. eexists. split; [vm_compute; reflexivity|]. split; vm_compute; reflexivity. Qed.
Print Assumptions C28_removed_interface_found_under_alias_refuted.
(** connecting two names which both have aliases changes a vector while it is being iterated over *)
Theorem C28_joining_two_groups_refuted : runOps [Alias [1] [2]; Alias [3] [4]; Alias [1] [3]] = ABroken.
Proof. vm_compute. reflexivity. Qed.
Print Assumptions C28_joining_two_groups_refuted.
(** an alias of an alias is not connected with an interface which appears as the second name of a declaration *)
Theorem C28_alias_of_alias_lost_refuted :
  exists s h, runOps [Alias [1] [2]; pub 0 [3]; Alias [1] [3]] = AOk s false /\ getInterfaceHandle [1] PUBLICATION s = Found 0 h /\ getInterfaceHandle [2] PUBLICATION s = Null.
Proof. eexists _, _. split; [vm_compute; reflexivity|]. split; vm_compute; reflexivity. Qed.
Print Assumptions C28_alias_of_alias_lost_refuted.
(** a declaration which fails leaves the names connected: the interface cannot be registered again after its removal *)
Theorem C28_failed_alias_remains_refuted :
  exists s s' s'', runOps [pub 0 [1]; pub 1 [2]; Alias [1] [2]] = AOk s true /\ doOp noGen (Remove (0x20000, 0)) s = AOk s' false /\
    getInterfaceHandle [1] PUBLICATION s' = Null /\ doOp noGen (pub 2 [1]) s' = AOk s'' true.
Proof. eexists _, _, _. split; [vm_compute; reflexivity|]. split; [vm_compute; reflexivity|]. split; vm_compute; reflexivity. Qed.
Print Assumptions C28_failed_alias_remains_refuted.
(** a translator whose name is taken by an endpoint is refused, but a publication of this name exists afterwards, at a handle
    which cannot be removed; the core's own check does not see the conflict *)
Theorem C27_failed_translator_leaves_publication_refuted :
  exists s s' h, runOps [Register (0x20000, 0) ENDPOINT [1] [] []] = AOk s false /\ nameTaken [1] TRANSLATOR s = false /\
    doOp noGen (Register (0x20001, 1) TRANSLATOR [1] [] []) s = AOk s' true /\ getInterfaceHandle [1] PUBLICATION s' = Found 1 h /\ h_kind h = TRANSLATOR /\
    removeHandle (0x20001, 1) s' = s'.
Proof. eexists _, _, _. split; [vm_compute; reflexivity|]. split; [vm_compute; reflexivity|]. split; [vm_compute; reflexivity|]. split; [vm_compute; reflexivity|]. split; vm_compute; reflexivity. Qed.
Print Assumptions C27_failed_translator_leaves_publication_refuted.

(** a history which meets the conditions: aliases before and after registration, a duplicate, a removal, a federate leaving *)
Definition history : list op :=
  [Alias [5] [6]; pub 0 [5]; pub 1 [6]; Register (0x20000, 2) INPUT [6] [] []; pub 3 [7]; Alias [8] [7]; Alias [9] [7]; Register (0x20001, 4) TRANSLATOR [10] [] []; RemoveFederate 0x20001; Register (0x20001, 5) SINK [10] [] []].
Lemma linked_in D : forall l, (forall x, In x l -> forall y, In (x, y) D \/ In (y, x) D -> In y l) -> forall a b, linked D a b -> (In a l <-> In b l).
Proof.
  intros l H a b X. induction X as [a b X|a|a b _ IH|a b c _ IH1 _ IH2]; [|tauto|tauto|tauto]. split; intros K; [apply (H a K b); auto|apply (H b K a); auto].
Qed.
Lemma reach_next gen s L D o s' thrown L' : reach gen s L D -> doOp gen o s = AOk s' thrown -> allowed L D o -> liveAfter L o thrown = L' -> reach gen s' L' (linksAfter D o).
Proof. intros R E A <-. eapply reach_op; eassumption. Qed.
Example C27_concrete : exists s L D, reach noGen s L D /\ runOps history = AOk s false /\
  map h_id L = [(0x20000, 0); (0x20000, 2); (0x20000, 3); (0x20001, 5)] /\ D = [([9], [7]); ([8], [7]); ([5], [6])].
Proof.
  assert (AL : forall D n, (forall y, In (n, y) D \/ In (y, n) D -> y = n) -> alone D n).
  { intros D n H m LK. assert (X : In n [n] <-> In m [n]) by (apply (linked_in D [n]); [intros x [<-|[]] y Q; left; symmetry; apply H; exact Q|exact LK]). destruct (proj1 X (or_introl eq_refl)) as [E|[]]. congruence. }
  assert (ND : forall D k key, ~ duplicate [] D k key) by (intros D k key (h & asked & ([] & _) & _)).
  eexists _, _, _. split.
  {
  pose proof (reach_start noGen) as R.
  Local Ltac go R o := eapply (reach_next noGen _ _ _ o) in R; [|vm_compute; reflexivity| |vm_compute; reflexivity]; cbn [linksAfter] in R.
  go R (Alias [5] [6]). 2:{ right. left. split; [apply AL; intros y [[]|[]]|]. intros asked h h' ([] & _). }
  go R (pub 0 [5]). 2:{ split; [discriminate|]. split; [discriminate|]. split; [intros h []|]. intros [X|X]; discriminate. }
  go R (pub 1 [6]). 2:{ split; [discriminate|]. split; [discriminate|]. split; [intros h [<-|[]]; discriminate|]. intros [X|X]; discriminate. }
  go R (Register (0x20000, 2) INPUT [6] [] []). 2:{ split; [discriminate|]. split; [discriminate|]. split; [intros h [<-|[]]; discriminate|]. intros [X|X]; discriminate. }
  go R (pub 3 [7]). 2:{ split; [discriminate|]. split; [discriminate|]. split; [intros h [<-|[<-|[]]]; discriminate|]. intros [X|X]; discriminate. }
  assert (Z1 : forall h, In h [mkInfo (0x20000, 0) PUBLICATION [5] [] []; mkInfo (0x20000, 2) INPUT [6] [] []; mkInfo (0x20000, 3) PUBLICATION [7] [] []] -> forall D n,
            (forall x, In x [n] -> forall y, In (x, y) D \/ In (y, x) D -> In y [n]) -> n <> [5] -> n <> [6] -> n <> [7] -> ~ linked D (h_key h) n).
  { intros h H D n C N5 N6 N7 LK. apply (linked_in D [n] C) in LK. pose proof (proj2 LK (or_introl eq_refl)) as [E|[]]. destruct H as [<-|[<-|[<-|[]]]]; cbn [h_key] in E; congruence. }
  go R (Alias [8] [7]). 2:{ right. left. split; [apply AL; intros y [[E|[]]|[E|[]]]; discriminate|]. intros asked h h' (A & _ & B) _. revert B. apply Z1; [exact A| |discriminate|discriminate|discriminate]. intros x [<-|[]] y [[E|[]]|[E|[]]]; discriminate. }
  go R (Alias [9] [7]). 2:{ right. left. split; [apply AL; intros y [[E|[E|[]]]|[E|[E|[]]]]; discriminate|]. intros asked h h' (A & _ & B) _. revert B. apply Z1; [exact A| |discriminate|discriminate|discriminate]. intros x [<-|[]] y [[E|[E|[]]]|[E|[E|[]]]]; discriminate. }
  go R (Register (0x20001, 4) TRANSLATOR [10] [] []). 2:{ split; [discriminate|]. split; [discriminate|]. split; [intros h [<-|[<-|[<-|[]]]]; discriminate|]. intros _ (h & asked & (A & _ & B) & _). revert B. apply Z1; [exact A| |discriminate|discriminate|discriminate]. intros x [<-|[]] y [[E|[E|[E|[]]]]|[E|[E|[E|[]]]]]; discriminate. }
  go R (RemoveFederate 0x20001). 2:{ intros h [<-|[<-|[<-|[<-|[]]]]] E; try discriminate. apply AL. intros y [[F|[F|[F|[]]]]|[F|[F|[F|[]]]]]; discriminate. }
  go R (Register (0x20001, 5) SINK [10] [] []). 2:{ split; [discriminate|]. split; [discriminate|]. split; [intros h [<-|[<-|[<-|[]]]]; discriminate|]. intros _ (h & asked & (A & _ & B) & _). revert B. apply Z1; [exact A| |discriminate|discriminate|discriminate]. intros x [<-|[]] y [[E|[E|[E|[]]]]|[E|[E|[E|[]]]]]; discriminate. }
  exact R. }
  split; [vm_compute; reflexivity|split; reflexivity].
Qed.
