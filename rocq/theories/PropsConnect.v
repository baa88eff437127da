(** * C29: pending connections are matched exactly once the target appears *)
From Coq Require Import ZArith Bool List Lia.
From Verif Require Import HTime Action Interfaces InputSpec PropsInput Ids PropsIds Handles HandlesAlias HandlesInv Connect.
Import ListNotations.

(** ** Specification *)
(** the requests (requester, flags) for an interface of kind [t] named [n] which are still open *)
Definition waiting (b : rb) (t : table) (n : name) : list target := map snd (filter (fun e => beq (fst e) n) (unk (un b) t)).
(** links by name whose first side is [n] *)
Definition linked_to (b : rb) (l : linkTab) (n : name) : list name := map snd (filter (fun e => beq (fst e) n) (lnk (un b) l)).
Definition linksOf (t : table) (b : rb) (n : name) : list name :=
  match t with Pubs => linked_to b LData n | Epts => linked_to b LEpt n | Filts => linked_to b LDst n ++ linked_to b LSrc n | Inps => [] end.
Definition reconnections (b : rb) (t : table) (n : name) : list target := map snd (filter (fun e => beq (fst e) n) (recon (un b) t)).
(** the root broker knows an interface of kind [t] called [n] *)
Definition resolves (b : rb) (t : table) (n : name) : Prop := exists i x, getInterfaceHandle n (tabKind t) (hs b) = Found i x.
(** what the two sides of a connection are told *)
Definition toRequester (t : table) : verb := match t with Pubs => ADD_PUBLISHER | Inps => ADD_SUBSCRIBER | Filts => ADD_FILTER | Epts => ADD_ENDPOINT end.
Definition toTarget (t : table) (v : verb) : Prop :=
  match t with Pubs => v = ADD_SUBSCRIBER | Inps => v = ADD_PUBLISHER | Filts => v = ADD_ENDPOINT | Epts => v = ADD_ENDPOINT \/ v = ADD_FILTER end.
(** [p]: requester [q] is told about interface [x], and [x] about [q]; nothing else *)
Definition introduces (t : table) (x q : Z * Z) (p : list notice) : Prop :=
  exists a c, (p = [a; c] \/ p = [c; a]) /\ n_verb a = toRequester t /\ n_src a = x /\ n_dst a = q /\ toTarget t (n_verb c) /\ n_src c = q /\ n_dst c = x.

(** ** multimaps *)
Lemma getTargets_app {A} n (m m' : list (name * A)) : getTargets n (m ++ m') = getTargets n m ++ getTargets n m'.
Proof. unfold getTargets. rewrite filter_app, map_app. reflexivity. Qed.
Lemma getTargets_one {A} n k (v : A) : getTargets n [(k, v)] = if beq k n then [v] else [].
Proof. unfold getTargets. cbn. destruct (beq k n); reflexivity. Qed.
Lemma getTargets_erase {A} n k (m : list (name * A)) : getTargets n (erase k m) = if beq k n then [] else getTargets n m.
Proof.
  unfold getTargets, erase. induction m as [|[a v] m IH]; cbn [filter map fst snd]; [destruct (beq k n); reflexivity|].
  destruct (beq a k) eqn:B; cbn [negb filter fst].
  - apply beq_eq in B. subst a. destruct (beq k n); [exact IH|exact IH].
  - destruct (beq a n) eqn:C; cbn [map snd].
    + apply beq_eq in C. subst a. rewrite IH. assert (beq k n = false) as ->. { apply beq_neq. apply beq_neq in B. congruence. } reflexivity.
    + exact IH.
Qed.
Lemma getTargets_filter {A} n (p : A -> bool) (m : list (name * A)) : getTargets n (filter (fun e => negb (p (snd e))) m) = filter (fun v => negb (p v)) (getTargets n m).
Proof.
  unfold getTargets. induction m as [|[a v] m IH]; cbn [filter map fst snd]; [reflexivity|]. destruct (p v) eqn:P; cbn [negb filter fst]; destruct (beq a n); cbn [map snd filter]; rewrite ?P; cbn [negb]; rewrite ?IH; reflexivity.
Qed.
Lemma table_eqb_eq a b : table_eqb a b = true <-> a = b.
Proof. destruct a, b; cbn; split; congruence. Qed.
Lemma table_eqb_refl a : table_eqb a a = true.
Proof. destruct a; reflexivity. Qed.
Lemma setAt_same {A} t (m : A) f : setAt t m f t = m.
Proof. unfold setAt. rewrite table_eqb_refl. reflexivity. Qed.
Lemma waiting_def b t n : waiting b t n = checkFor t n (un b).
Proof. reflexivity. Qed.
Lemma isFound_iff b t n : isFound n (tabKind t) (hs b) = true <-> resolves b t n.
Proof. unfold isFound, resolves. destruct (getInterfaceHandle n (tabKind t) (hs b)) as [|i x|]; split; try discriminate; intros H; try (destruct H as (? & ? & H); discriminate); [exists i, x; reflexivity|reflexivity]. Qed.

(** ** one request *)
Lemma waiting_add b t n e t' n' : waiting (setUn (addUnknown t n e (un b)) b) t' n' = waiting b t' n' ++ (if table_eqb t t' && beq n n' then [e] else []).
Proof.
  unfold waiting, addUnknown, setAt. cbn [un setUn unk]. destruct (table_eqb t t') eqn:T; cbn [andb]; [|rewrite app_nil_r; reflexivity].
  apply table_eqb_eq in T. subst t'. change (getTargets n' (unk (un b) t ++ [(n, e)]) = getTargets n' (unk (un b) t) ++ if beq n n' then [e] else []).
  rewrite getTargets_app, getTargets_one. reflexivity.
Qed.
(** everything but the handles, their flags *)
Definition sameUn (b b' : rb) : Prop := un b' = un b /\ bad b' = bad b /\ operating b' = operating b.
Lemma enter_frame gen k key id ty u fg b b' : enter gen k key id ty u fg b = Some b' -> sameUn b b'.
Proof. unfold enter. destruct (addHandle _ _ _ _ _ _ _ _) as [s []]; [discriminate|]. injection 1 as <-. split; [|split]; reflexivity. Qed.
Lemma anonymous_frame gen q b b' out : enterAnonymous gen q b = Ok b' out -> sameUn b b' /\ out = [] /\ (q_strings q = None -> b' = b).
Proof.
  unfold enterAnonymous. assert (R : sameUn b b) by (split; [|split]; reflexivity).
  destruct (q_strings q) as [[ty u]|], (q_tab q); try (injection 1 as <- <-; split; [exact R|split; [reflexivity|reflexivity]]).
  all: destruct (findHandle (q_src q) (hs b)); try (injection 1 as <- <-; split; [exact R|split; [reflexivity|discriminate]]).
  all: destruct (enter _ _ _ _ _ _ _ _) as [b1|] eqn:E; [|discriminate]; injection 1 as <- <-; split; [apply (enter_frame _ _ _ _ _ _ _ _ _ E)|split; [reflexivity|discriminate]].
Qed.
Definition asked (q : req) : target := (q_src q, q_flags q).
Definition restUn (b b' : rb) : Prop := lnk (un b') = lnk (un b) /\ bad b' = bad b /\ operating b' = operating b.
Lemma named_spec gen q b b' out : checkForNamedInterface gen q b = Ok b' out ->
  restUn b b' /\ (q_strings q = None -> hs b' = hs b) /\ (checkActionFlag (q_flags q) reconnectable_flag = false -> recon (un b') = recon (un b)) /\
  ((exists i x, getInterfaceHandle (q_name q) (tabKind (q_tab q)) (hs b) = Found i x /\ out = connectNow q x b /\ hs b' = hs b /\ forall t n, waiting b' t n = waiting b t n) \/
   (~ resolves b (q_tab q) (q_name q) /\ out = [] /\ forall t n, waiting b' t n = waiting b t n ++ (if table_eqb (q_tab q) t && beq (q_name q) n then [asked q] else []))).
Proof.
  unfold checkForNamedInterface. set (b0 := if checkActionFlag (q_flags q) reconnectable_flag then _ else b).
  assert (H0 : hs b0 = hs b /\ restUn b b0 /\ unk (un b0) = unk (un b) /\ fl b0 = fl b).
  { unfold b0. destruct (checkActionFlag (q_flags q) reconnectable_flag); (split; [|split; [split; [|split]|split]]; reflexivity). }
  assert (R0 : checkActionFlag (q_flags q) reconnectable_flag = false -> recon (un b0) = recon (un b)) by (unfold b0; intros ->; reflexivity).
  assert (C0 : forall x, connectNow q x b0 = connectNow q x b).
  { intros x. destruct H0 as (H1 & (_ & H2 & _) & _ & H4). unfold connectNow, flagsOf. rewrite H1, H2, H4. reflexivity. }
  assert (W0 : forall t n, waiting b0 t n = waiting b t n) by (intros; unfold waiting; destruct H0 as (_ & _ & -> & _); reflexivity).
  clearbody b0. destruct H0 as (Hh & (L1 & L2 & L3) & U & F).
  destruct (getInterfaceHandle (q_name q) (tabKind (q_tab q)) (hs b0)) as [|i x|] eqn:G; intros E.
  2:{ injection E as <- <-. split; [split; [|split]; assumption|]. split; [intros _; exact Hh|]. split; [exact R0|]. left. exists i, x. rewrite Hh in G.
      split; [exact G|]. split; [apply C0|]. split; [exact Hh|exact W0]. }
  all: apply anonymous_frame in E; destruct E as ((A1 & A2 & A3) & -> & A4); cbn [un bad operating setUn] in A1, A2, A3.
  all: split; [split; [rewrite A1; cbn [addUnknown lnk]; exact L1|split; [rewrite A2; exact L2|rewrite A3; exact L3]]|].
  all: split; [intros N; rewrite (A4 N); exact Hh|]. all: split; [intros N; rewrite A1; cbn [addUnknown recon]; exact (R0 N)|].
  all: right; split; [intros (i & x & H); rewrite <- Hh in H; congruence|]. all: split; [reflexivity|]. all: intros t n.
  all: transitivity (waiting (setUn (addUnknown (q_tab q) (q_name q) (asked q) (un b0)) b0) t n); [unfold waiting; rewrite A1; reflexivity|]; rewrite waiting_add, W0; reflexivity.
Qed.

Lemma error_visible f : checkActionFlag (setActionFlag f error_flag) error_flag = true.
Proof. unfold checkActionFlag, setActionFlag. rewrite Z.land_lor_distr_l. change (Z.land (mask error_flag) (mask error_flag)) with 16%Z. change (mask error_flag) with 16%Z.
  destruct (Z.lor (Z.land f 16) 16 =? 0)%Z eqn:E; [|reflexivity]. apply Z.eqb_eq in E. apply Z.lor_eq_0_iff in E. destruct E; discriminate. Qed.
(** A request for a name the broker knows is answered at once: both sides are told (or, when the owner of the target has
    failed or left, the requester alone, with the error flag), and nothing is remembered for later. *)
Theorem C29_known_target_is_connected_at_once gen q b b' out x i : step gen (ORequest q) b = Ok b' out ->
  getInterfaceHandle (q_name q) (tabKind (q_tab q)) (hs b) = Found i x ->
  (forall t n, waiting b' t n = waiting b t n) /\
  (q_tab q = Filts \/ bad b (fst (h_id x)) = false -> introduces (q_tab q) (h_id x) (q_src q) out) /\
  (q_tab q <> Filts -> bad b (fst (h_id x)) = true -> exists a, out = [a] /\ n_verb a = toRequester (q_tab q) /\ n_src a = h_id x /\ n_dst a = q_src q /\ checkActionFlag (n_flags a) error_flag = true).
Proof.
  intros E G. apply named_spec in E. destruct E as (_ & _ & _ & [(i' & x' & G' & -> & _ & W)|(N & _)]); [|destruct N; exists i, x; exact G].
  rewrite G in G'. injection G' as <- <-. split; [exact W|]. split.
  - intros H. unfold introduces, connectNow. destruct (q_tab q) eqn:T.
    + destruct H as [H| ->]; [discriminate|]. do 2 eexists. split; [right; reflexivity|]. repeat split.
    + destruct H as [H| ->]; [discriminate|]. destruct (q_ept q).
      * do 2 eexists. split; [right; reflexivity|]. repeat split. left. reflexivity.
      * destruct (match findHandle (q_src q) (hs b) with Found _ p => _ | _ => _ end) as [[f ty] u]. do 2 eexists. split; [right; reflexivity|]. repeat split. right. reflexivity.
    + destruct H as [H| ->]; [discriminate|]. destruct (match findHandle (q_src q) (hs b) with Found _ p => _ | _ => _ end) as [ty u].
      do 2 eexists. split; [right; reflexivity|]. repeat split.
    + destruct (if empty (h_type x) && empty (h_units x) then _ else _) as [ty u]. do 2 eexists. split; [right; reflexivity|]. repeat split.
  - intros NF B. unfold connectNow. rewrite B. assert (C : forall f, checkActionFlag (setActionFlag f error_flag) error_flag = true) by (intros f; apply error_visible).
    destruct (q_tab q); try (eexists; split; [reflexivity|]; repeat split; apply C). destruct (NF eq_refl).
Qed.

(** A request for an unknown name sends nothing and becomes open: one more entry for this name and kind, nothing else changes. *)
Theorem C29_unknown_target_is_remembered gen q b b' out : step gen (ORequest q) b = Ok b' out -> ~ resolves b (q_tab q) (q_name q) ->
  out = [] /\ waiting b' (q_tab q) (q_name q) = waiting b (q_tab q) (q_name q) ++ [(q_src q, q_flags q)] /\
  (forall t n, t <> q_tab q \/ n <> q_name q -> waiting b' t n = waiting b t n).
Proof.
  intros E N. apply named_spec in E. destruct E as (_ & _ & _ & [(i' & x' & G' & _)|(_ & -> & W)]); [destruct N; exists i', x'; exact G'|].
  split; [reflexivity|]. split; [rewrite W, table_eqb_refl, beq_refl; reflexivity|].
  intros t n H. rewrite W. destruct (table_eqb (q_tab q) t) eqn:T; [|cbn [andb]; apply app_nil_r]. apply table_eqb_eq in T. destruct (beq (q_name q) n) eqn:B; [|cbn [andb]; apply app_nil_r].
  apply beq_eq in B. destruct H; congruence.
Qed.

(** ** the calls made for a new interface *)
Definition opened (l : list req) (s : hm) (t : table) (n : name) : list target :=
  map asked (filter (fun q => negb (isFound (q_name q) (tabKind (q_tab q)) s) && (table_eqb (q_tab q) t && beq (q_name q) n)) l).
Lemma nameAll_spec gen l : forall b b' out, Forall (fun q => q_strings q = None) l -> nameAll gen l b = Ok b' out ->
  restUn b b' /\ hs b' = hs b /\ (Forall (fun q => checkActionFlag (q_flags q) reconnectable_flag = false) l -> recon (un b') = recon (un b)) /\
  (forall t n, waiting b' t n = waiting b t n ++ opened l (hs b) t n) /\ (l = [] -> b' = b /\ out = []).
Proof.
  induction l as [|q l IH]; intros b b' out F E.
  - injection E as <- <-. split; [split; [|split]; reflexivity|]. split; [reflexivity|]. split; [reflexivity|]. split; [intros; rewrite app_nil_r; reflexivity|split; reflexivity].
  - cbn [nameAll] in E. unfold bind in E. destruct (checkForNamedInterface gen q b) as [b1 o1|] eqn:E1; [|discriminate].
    destruct (nameAll gen l b1) as [b2 o2|] eqn:E2; [|discriminate]. injection E as <- <-. inversion F as [|? ? F1 F2]; subst.
    apply named_spec in E1. destruct E1 as ((A1 & A2 & A3) & A4 & A5 & A6). specialize (A4 F1). apply (IH b1 b2 o2 F2) in E2. destruct E2 as ((B1 & B2 & B3) & B4 & B5 & B6 & _).
    split; [split; [congruence|split; congruence]|]. split; [congruence|]. split; [intros Q; inversion Q; subst; rewrite B5, A5; [reflexivity|assumption..]|]. split; [|discriminate].
    intros t n. rewrite B6, A4. unfold opened. cbn [filter]. destruct A6 as [(i & x & G & _ & _ & W)|(N & _ & W)]; rewrite W.
    + unfold isFound at 2. rewrite G. cbn [negb andb]. reflexivity.
    + assert (isFound (q_name q) (tabKind (q_tab q)) (hs b) = false) as ->. { destruct (isFound _ _ _) eqn:I; [|reflexivity]. apply isFound_iff in I. contradiction. }
      cbn [negb andb]. destruct (table_eqb (q_tab q) t && beq (q_name q) n); cbn [map app]; rewrite <- app_assoc; reflexivity.
Qed.
Lemma opened_found l s t n : isFound n (tabKind t) s = true -> opened l s t n = [].
Proof.
  intros F. unfold opened. induction l as [|q l IH]; [reflexivity|]. cbn [filter]. destruct (table_eqb (q_tab q) t) eqn:T; [|rewrite andb_false_r; exact IH]. apply table_eqb_eq in T. subst t.
  destruct (beq (q_name q) n) eqn:B; [|cbn [andb]; rewrite andb_false_r; exact IH]. apply beq_eq in B. subst n. rewrite F. exact IH.
Qed.
Lemma opened_app l l' s t n : opened (l ++ l') s t n = opened l s t n ++ opened l' s t n.
Proof. unfold opened. rewrite filter_app, map_app. reflexivity. Qed.
(** the requests made in the name of [x] for the links of its name *)
Definition linkReqs (t : table) (x : info) (b : rb) (key : name) : list req :=
  match t with
  | Inps => []
  | Pubs => map (fun n => mkReq Inps n (h_id x) 0 false None) (linked_to b LData key)
  | Epts => map (fun n => mkReq Epts n (h_id x) (setActionFlag 0 destination_target) true None) (linked_to b LEpt key)
  | Filts => map (fun n => mkReq Epts n (h_id x) (orClone x b (setActionFlag (flagsOf (h_id x) b) destination_target)) false None) (linked_to b LDst key) ++
             map (fun n => mkReq Epts n (h_id x) (orClone x b (flagsOf (h_id x) b)) false None) (linked_to b LSrc key)
  end.
Lemma linkReqs_src t x b key : Forall (fun q => q_src q = h_id x /\ q_strings q = None) (linkReqs t x b key).
Proof. destruct t; cbn; rewrite ?Forall_app, ?Forall_map; try constructor; try (apply Forall_forall; intros; split; reflexivity); split; apply Forall_forall; intros; split; reflexivity. Qed.
Lemma linkReqs_nil t x b key : linksOf t b key = [] -> linkReqs t x b key = [].
Proof. destruct t; cbn; try reflexivity; try (intros ->; reflexivity). intros H. apply app_eq_nil in H. destruct H as [-> ->]. reflexivity. Qed.

Lemma Forall2_flat {A} (R : A -> list notice -> Prop) (f : A -> list notice) l : (forall e, R e (f e)) -> exists ps, flat_map f l = concat ps /\ Forall2 R l ps.
Proof. intros H. exists (map f l). split; [apply flat_map_concat_map|]. induction l; constructor; auto. Qed.
(** a search by handle returns the interface with this handle *)
Definition faithful (s : hm) : Prop := forall id i, findUid id (uids s) = Some i -> exists h, nth_error (handles s) i = Some h /\ h_id h = id.
Lemma faithful_find s id : faithful s -> findHandle id s = Null \/ exists i h, findHandle id s = Found i h /\ h_id h = id.
Proof. intros F. unfold findHandle, deref. destruct (findUid id (uids s)) as [i|] eqn:E; [|left; reflexivity]. destruct (F _ _ E) as (h & -> & H). right. exists i, h. split; [reflexivity|exact H]. Qed.
Lemma connectEndpoints_spec x b l o : faithful (hs b) -> connectEndpoints x b l = Some o -> exists ps, o = concat ps /\ Forall2 (fun e => introduces Epts (h_id x) (fst e)) l ps.
Proof.
  intros FA. revert o. induction l as [|e l IH]; intros o; cbn [connectEndpoints].
  - injection 1 as <-. exists []. split; [reflexivity|constructor].
  - destruct (faithful_find (hs b) (fst e) FA) as [->|(i & p & -> & ID)]; [discriminate|]. destruct (connectEndpoints x b l) as [o'|]; [|discriminate]. injection 1 as <-. destruct (IH _ eq_refl) as (ps & -> & H2).
    eexists (_ :: ps). split; [reflexivity|]. constructor; [|exact H2].
    destruct (h_kind p); (do 2 eexists; split; [left; reflexivity|]; cbn; repeat split; auto).
Qed.
Lemma connectInput_spec x b e : faithful (hs b) -> introduces Inps (h_id x) (fst e) (connectInput x b e).
Proof.
  intros FA. unfold connectInput. destruct (faithful_find (hs b) (fst e) FA) as [->|(i & p & -> & ID)]; (do 2 eexists; split; [left; reflexivity|]; cbn; repeat split; auto).
Qed.
Lemma connectPublication_spec x b e : introduces Pubs (h_id x) (fst e) (connectPublication x b e).
Proof. do 2 eexists; split; [left; reflexivity|]; cbn; repeat split. Qed.
Lemma connectFilter_spec x b e : introduces Filts (h_id x) (fst e) (connectFilter x b e).
Proof. do 2 eexists; split; [left; reflexivity|]; cbn; repeat split. Qed.
Definition clearOf (t : table) : name -> unknowns -> unknowns := match t with Pubs => clearPublication | Inps => clearInput | Epts => clearEndpoint | Filts => clearFilter end.
Lemma clear_waiting t n b t' n' : waiting (setUn (clearOf t n (un b)) b) t' n' = if table_eqb t t' && beq n n' then [] else waiting b t' n'.
Proof.
  assert (E : unk (clearOf t n (un b)) t' = if table_eqb t t' then erase n (unk (un b) t') else unk (un b) t').
  { destruct t, t'; reflexivity. }
  unfold waiting. cbn [un setUn]. rewrite E. destruct (table_eqb t t'); [|reflexivity]. cbn [andb].
  change (getTargets n' (erase n (unk (un b) t')) = if beq n n' then [] else getTargets n' (unk (un b) t')). apply getTargets_erase.
Qed.
Lemma clear_frame t n b : recon (clearOf t n (un b)) = recon (un b).
Proof. destruct t; reflexivity. Qed.

Lemma bind_ok r f b out : bind r f = Ok b out -> exists b1 o1 o2, r = Ok b1 o1 /\ f b1 = Ok b o2 /\ out = o1 ++ o2.
Proof. unfold bind. destruct r as [b1 o1|]; [|discriminate]. destruct (f b1) as [b2 o2|] eqn:E; [|discriminate]. injection 1 as <- <-. exists b1, o1, o2. auto. Qed.
(** ** findAndNotify...Targets *)
Definition quietOut (t : table) (b : rb) (key : name) : Prop := linksOf t b key = [] /\ (operating b = true -> reconnections b t key = []).
Lemma clear_links t n b l n' : linked_to b l n' = [] -> linked_to (setUn (clearOf t n (un b)) b) l n' = [].
Proof.
  unfold linked_to. cbn [un setUn]. intros H.
  assert (E : lnk (clearOf t n (un b)) l = lnk (un b) l \/ lnk (clearOf t n (un b)) l = erase n (lnk (un b) l)).
  { destruct t, l; (left; reflexivity) || (right; reflexivity). }
  destruct E as [->| ->]; [exact H|]. change (getTargets n' (erase n (lnk (un b) l)) = []). rewrite getTargets_erase. change (getTargets n' (lnk (un b) l) = []) in H. rewrite H. destruct (beq n n'); reflexivity.
Qed.
Lemma empty_iff {A} (l : list A) : empty l = true <-> l = [].
Proof. destruct l; cbn; split; congruence. Qed.
Lemma nameAll_app gen l1 l2 : forall b b0 b1 o1 o2, nameAll gen l1 b = Ok b0 o1 -> nameAll gen l2 b0 = Ok b1 o2 -> nameAll gen (l1 ++ l2) b = Ok b1 (o1 ++ o2).
Proof.
  induction l1 as [|q l1 IH]; intros b b0 b1 o1 o2 E0 E1.
  - injection E0 as <- <-. exact E1.
  - cbn [app nameAll] in *. apply bind_ok in E0. destruct E0 as (bb & oa & ob & F1 & F2 & ->). rewrite F1. cbn [bind]. rewrite (IH _ _ _ _ _ F2 E1). rewrite app_assoc. reflexivity.
Qed.
Lemma notify_spec gen t x key b b' out : faithful (hs b) -> isFound key (tabKind t) (hs b) = true -> findAndNotify gen t x key b = Ok b' out ->
  hs b' = hs b /\ bad b' = bad b /\ operating b' = operating b /\
  (exists ps rest, out = concat ps ++ rest /\ Forall2 (fun e => introduces t (h_id x) (fst e)) (waiting b t key) ps /\ (quietOut t b key -> rest = [])) /\
  (forall t' n', waiting b' t' n' = (if table_eqb t t' && beq key n' then [] else waiting b t' n') ++ opened (linkReqs t x b key) (hs b) t' n') /\
  (forall l n, linked_to b l n = [] -> linked_to b' l n = []) /\
  (linksOf t b key = [] -> recon (un b') = recon (un b)).
Proof.
  intros FA IF E.
  (* the end of all of them: links are worked off in b1, then cleared, then reconnections *)
  assert (FIN : forall (b' : rb) (out : list notice) (b1 : rb) (o1 : list notice) (e : bool) (o3 : list notice) ps,
    nameAll gen (linkReqs t x b key) b = Ok b1 o1 -> (e = true -> waiting b t key = [] /\ linksOf t b key = []) ->
    b' = (if e then b1 else setUn (clearOf t key (un b1)) b1) -> Forall2 (fun e => introduces t (h_id x) (fst e)) (waiting b t key) ps ->
    (linksOf t b key = [] -> operating b = false \/ (operating b = true /\ reconnections b t key = []) -> o3 = []) -> out = concat ps ++ o1 ++ o3 ->
    hs b' = hs b /\ bad b' = bad b /\ operating b' = operating b /\
    (exists ps rest, out = concat ps ++ rest /\ Forall2 (fun e => introduces t (h_id x) (fst e)) (waiting b t key) ps /\ (quietOut t b key -> rest = [])) /\
    (forall t' n', waiting b' t' n' = (if table_eqb t t' && beq key n' then [] else waiting b t' n') ++ opened (linkReqs t x b key) (hs b) t' n') /\
    (forall l n, linked_to b l n = [] -> linked_to b' l n = []) /\
    (linksOf t b key = [] -> recon (un b') = recon (un b))).
  { clear E b' out. intros b' out b1 o1 e o3 ps NA EM EB F2 O3 EO. pose proof (linkReqs_src t x b key) as LS.
    apply nameAll_spec in NA; [|revert LS; apply Forall_impl; tauto]. destruct NA as ((N1 & N2 & N3) & N4 & N5 & N6 & N7).
    assert (HB : hs b' = hs b1 /\ bad b' = bad b1 /\ operating b' = operating b1 /\ recon (un b') = recon (un b1)) by (subst b'; destruct e; repeat split; apply clear_frame).
    destruct HB as (H1 & H2 & H3 & H4). rewrite H1, H2, H3. split; [exact N4|]. split; [exact N2|]. split; [exact N3|]. split.
    { exists ps, (o1 ++ o3). split; [exact EO|]. split; [exact F2|]. intros [Q1 Q2]. rewrite (linkReqs_nil _ _ _ _ Q1) in N7. destruct (N7 eq_refl) as [_ ->]. cbn. apply O3; [exact Q1|].
      destruct (operating b); [right; split; [reflexivity|apply Q2; reflexivity]|left; reflexivity]. }
    split; [|split].
    - intros t' n'. assert (OK : opened (linkReqs t x b key) (hs b) t key = []) by (apply opened_found; exact IF).
      subst b'. destruct e.
      + destruct (EM eq_refl) as [W _]. rewrite N6. destruct (table_eqb t t') eqn:T; [|reflexivity]. apply table_eqb_eq in T. subst t'. destruct (beq key n') eqn:B; [|reflexivity]. apply beq_eq in B. subst n'. cbn [andb]. rewrite W. reflexivity.
      + rewrite clear_waiting. rewrite N6. destruct (table_eqb t t') eqn:T; [|reflexivity]. apply table_eqb_eq in T. subst t'. destruct (beq key n') eqn:B; [|reflexivity]. apply beq_eq in B. subst n'. cbn [andb]. rewrite OK. reflexivity.
    - intros l n H. assert (H' : linked_to b1 l n = []) by (unfold linked_to in *; rewrite N1; exact H). subst b'. destruct e; [exact H'|]. apply clear_links. exact H'.
    - intros Q. rewrite H4. rewrite (linkReqs_nil _ _ _ _ Q) in N7. destruct (N7 eq_refl) as [-> _]. reflexivity. }
  destruct t; cbn [findAndNotify] in E.
  - unfold findAndNotifyPublicationTargets in E. apply bind_ok in E. destruct E as (b1 & o1 & o3 & E1 & E2 & ->). apply bind_ok in E1. destruct E1 as (b0 & o0 & o2 & E0 & E1 & ->). injection E0 as <- <-.
    destruct (Forall2_flat (A:=target) (fun e : target => introduces Pubs (h_id x) (fst e)) (connectPublication x b) (checkFor Pubs key (un b)) (connectPublication_spec x b)) as (ps & P1 & P2). rewrite P1.
    injection E2 as <- <-. eapply (FIN _ _ b1 o2 (empty (checkFor Pubs key (un b)) && empty (checkForLinks LData key (un b))) _ ps E1); [|reflexivity|exact P2| |symmetry; apply app_assoc].
    + intros H. apply andb_true_iff in H. destruct H as [H H']. apply empty_iff in H, H'. split; assumption.
    + pose proof (linkReqs_src Pubs x b key) as LS. change (nameAll gen (linkReqs Pubs x b key) b = Ok b1 o2) in E1. apply nameAll_spec in E1; [|revert LS; apply Forall_impl; tauto]. destruct E1 as ((N1 & N2 & N3) & N4 & N5 & N6 & N7).
      intros Q H. pose proof (linkReqs_nil _ x _ _ Q) as LN. rewrite LN in N7. destruct (N7 eq_refl) as [-> ->]. match goal with |- (if operating ?X then _ else _) = _ => set (b2 := X) end. 
      assert (HB : operating b2 = operating b /\ recon (un b2) = recon (un b)) by (unfold b2; destruct (empty _ && empty _); split; reflexivity). destruct HB as [-> HB].
      destruct H as [->|[-> H]]; [reflexivity|]. unfold checkForReconnection, getTargets. rewrite HB. unfold reconnections in H. rewrite H. reflexivity.
  - unfold findAndNotifyEndpointTargets in E. apply bind_ok in E. destruct E as (b1 & o1 & o3 & E1 & E2 & ->). apply bind_ok in E1. destruct E1 as (b0 & o0 & o2 & E0 & E1 & ->).
    unfold orCrash in E0. destruct (connectEndpoints x b (checkFor Epts key (un b))) as [oe|] eqn:CE; [|discriminate]. injection E0 as <- <-.
    destruct (connectEndpoints_spec _ _ _ _ FA CE) as (ps & -> & P2).
    match type of E2 with (if operating ?X then _ else _) = _ => set (b2 := X) in E2 end. assert (B2 : b' = b2). { clear - E2. clearbody b2. revert E2. unfold orCrash. destruct (operating b2); [|congruence]. destruct (connectEndpoints _ _ _); congruence. }
    eapply (FIN _ _ b1 o2 (empty (checkFor Epts key (un b)) && empty (checkForLinks LEpt key (un b))) o3 ps E1); [|subst b'; reflexivity|exact P2| |symmetry; apply app_assoc].
    + intros H. apply andb_true_iff in H. destruct H as [H H']. apply empty_iff in H, H'. split; assumption.
    + pose proof (linkReqs_src Epts x b key) as LS. change (nameAll gen (linkReqs Epts x b key) b = Ok b1 o2) in E1. apply nameAll_spec in E1; [|revert LS; apply Forall_impl; tauto]. destruct E1 as ((N1 & N2 & N3) & N4 & N5 & N6 & N7).
      intros Q H. pose proof (linkReqs_nil _ x _ _ Q) as LN. rewrite LN in N7. destruct (N7 eq_refl) as [-> ->].
      assert (HB : operating b2 = operating b /\ recon (un b2) = recon (un b)) by (unfold b2; destruct (empty _ && empty _); split; reflexivity). destruct HB as [HO HB]. rewrite HO in E2.
      destruct H as [HF|[HF H]]; rewrite HF in E2; [congruence|]. unfold checkForReconnection, getTargets in E2. rewrite HB in E2. unfold reconnections in H. rewrite H in E2. cbn in E2. congruence.
  - injection E as <- <-. assert (ALL : forall e, introduces Inps (h_id x) (fst e) (connectInput x b e)) by (intros; apply connectInput_spec; exact FA).
    destruct (Forall2_flat (A:=target) (fun e : target => introduces Inps (h_id x) (fst e)) (connectInput x b) (checkFor Inps key (un b)) ALL) as (ps & P1 & P2). rewrite P1.
    eapply (FIN _ _ b [] (empty (checkFor Inps key (un b))) _ ps); [reflexivity| |reflexivity|exact P2| |reflexivity].
    + intros H. apply empty_iff in H. split; [exact H|reflexivity].
    + intros Q H. match goal with |- (if operating ?X then _ else _) = _ => set (b2 := X) end. assert (HB : operating b2 = operating b /\ recon (un b2) = recon (un b)) by (unfold b2; destruct (empty _); split; reflexivity). destruct HB as [-> HB].
      destruct H as [->|[-> H]]; [reflexivity|]. unfold checkForReconnection, getTargets. rewrite HB. unfold reconnections in H. rewrite H. reflexivity.
  - unfold findAndNotifyFilterTargets in E. apply bind_ok in E. destruct E as (b1 & o1 & o3 & E1 & E2 & ->). apply bind_ok in E1. destruct E1 as (b0 & o0 & o2 & E0 & E1 & ->). apply bind_ok in E0. destruct E0 as (bx & ox & oy & EX & E0 & ->). injection EX as <- <-.
    destruct (Forall2_flat (A:=target) (fun e : target => introduces Filts (h_id x) (fst e)) (connectFilter x b) (checkFor Filts key (un b)) (connectFilter_spec x b)) as (ps & P1 & P2). rewrite P1.
    injection E2 as <- <-.
    assert (NA : nameAll gen (linkReqs Filts x b key) b = Ok b1 (oy ++ o2)).
    { cbn [linkReqs]. exact (nameAll_app gen _ _ _ _ _ _ _ E0 E1). }
    eapply (FIN _ _ b1 (oy ++ o2) (empty (checkFor Filts key (un b)) && empty (checkForLinks LDst key (un b)) && empty (checkForLinks LSrc key (un b))) _ ps NA); [|reflexivity|exact P2| |rewrite <- !app_assoc; reflexivity].
    + intros H. apply andb_true_iff in H. destruct H as [H H'']. apply andb_true_iff in H. destruct H as [H H']. apply empty_iff in H, H', H''. split; [exact H|]. cbn [linksOf]. change (linked_to b LDst key = []) in H'. change (linked_to b LSrc key = []) in H''. rewrite H', H''. reflexivity.
    + intros Q _. match goal with |- (if operating ?X then _ else _) = _ => set (b2 := X) end.
      assert (W : checkFor Filts key (un b2) = []).
      { pose proof (linkReqs_nil _ x _ _ Q) as LN. rewrite LN in NA. injection NA as <- _. unfold b2. destruct (empty (checkFor Filts key (un b)) && _ && _) eqn:EE.
        - apply andb_true_iff in EE. destruct EE as [H _]. apply andb_true_iff in H. destruct H as [H _]. apply empty_iff in H. exact H.
        - exact (eq_trans (clear_waiting Filts key b Filts key) (f_equal (fun z : bool => if z then [] else waiting b Filts key) (eq_trans (f_equal (andb true) (beq_refl key)) eq_refl))). }
      rewrite W. destruct (operating b2); reflexivity.
Qed.

(** ** the registry after an entry *)
Lemma emplace_keeps {A} a (v : A) m n w : find n m = Some w -> find n (emplace a v m) = Some w.
Proof. rewrite find_emplace. intros ->. reflexivity. Qed.
Lemma emplaceAll_keeps l i : forall m m' th n w, emplaceAll l i m = (m', th) -> find n m = Some w -> find n m' = Some w.
Proof.
  induction l as [|a l IH]; intros m m' th n w E F; cbn in E; [injection E as <- _; exact F|]. destruct (find a m); [injection E as <- _; exact F|]. apply (IH _ _ _ _ _ E). apply emplace_keeps. exact F.
Qed.
Lemma addFields_keeps key i al m m' th n w : addFields key i al m = (m', th) -> find n m = Some w -> find n m' = Some w.
Proof.
  unfold addFields. intros E F. destruct (find key m) eqn:K; [injection E as <- _; exact F|]. destruct (find key al) as [l|].
  - apply (emplaceAll_keeps _ _ _ _ _ _ _ E). apply emplace_keeps. exact F.
  - injection E as <- _. apply emplace_keeps. exact F.
Qed.
Lemma addFields_key key i al m m' : addFields key i al m = (m', false) -> find key m' = Some i.
Proof.
  unfold addFields. destruct (find key m) eqn:K; [discriminate|]. assert (P : find key (emplace key i m) = Some i) by (rewrite find_emplace, K, beq_refl; reflexivity).
  destruct (find key al) as [l|]; intros E; [apply (emplaceAll_keeps _ _ _ _ _ _ _ E); exact P|injection E as <-; exact P].
Qed.
Lemma addToTables_facts l key i : forall s s' th, addToTables l key i s = (s', th) ->
  handles s' = handles s /\ uids s' = uids s /\ aliases s' = aliases s /\
  (forall t n w, find n (tab t s) = Some w -> find n (tab t s') = Some w) /\ (th = false -> forall t, In t l -> find key (tab t s') = Some i).
Proof.
  induction l as [|t l IH]; intros s s' th E; cbn [addToTables] in E.
  - injection E as <- <-. repeat split; auto. intros _ t [].
  - destruct (addFields key i (aliases s) (tab t s)) as [m thr] eqn:AF. destruct (setTab_frame t m s) as (F1 & F2 & F3).
    assert (K : forall t' n w, find n (tab t' s) = Some w -> find n (tab t' (setTab t m s)) = Some w).
    { intros t' n w F. rewrite tab_setTab. destruct (table_dec t' t) as [->|]; [|exact F]. apply (addFields_keeps _ _ _ _ _ _ _ _ AF F). }
    destruct thr.
    + injection E as <- <-. repeat split; auto; try congruence; try discriminate.
    + destruct (IH _ _ _ E) as (G1 & G2 & G3 & G4 & G5). repeat split; try congruence; [intros; apply G4, K; assumption|].
      intros T t' [<-|H]; [|apply G5; assumption]. apply G4. rewrite tab_setTab. destruct (table_dec t t); [|congruence]. apply (addFields_key _ _ _ _ _ AF).
Qed.
Lemma nth_last {A} (l : list A) x : nth_error (l ++ [x]) (length l) = Some x.
Proof. rewrite nth_error_app2 by lia. rewrite Nat.sub_diag. reflexivity. Qed.
Lemma addHandle_facts gen id k key ty u s s' th : addHandle gen (fst id) (snd id) k key ty u s = (s', th) ->
  let x := mkInfo id k (actKey gen k key s) ty u in
  (forall t n i, find n (tab t s) = Some i -> find n (tab t s') = Some i) /\ handles s' = handles s ++ [x] /\ aliases s' = aliases s /\
  uids s' = (if th then uids s else emplaceUid id (length (handles s)) (uids s)) /\
  (th = false -> h_key x <> [] -> forall t, In t (tablesOf k) -> find (h_key x) (tab t s') = Some (length (handles s))).
Proof.
  intros E x. change (h_key x) with (actKey gen k key s). unfold addHandle, addSearchFields in E. cbn [h_key h_kind h_id] in E. replace (fst id, snd id) with id in E by (destruct id; reflexivity).
  change (mkInfo id k (actKey gen k key s) ty u) with x in E. clearbody x. set (s1 := setHandles (handles s ++ [x]) s) in E.
  assert (T1 : forall t, tab t s1 = tab t s) by (intros []; reflexivity).
  assert (U : forall u' s2, (forall t, tab t (setUids u' s2) = tab t s2)) by (intros u' s2 []; reflexivity).
  remember (actKey gen k key s) as ak. clear Heqak. destruct (match ak with [] => true | _ => false end) eqn:KX.
  - injection E as <- <-. split; [intros; rewrite U, T1; assumption|]. split; [reflexivity|]. split; [reflexivity|]. split; [reflexivity|]. intros _ NE. destruct ak; [congruence|discriminate].
  - destruct (addToTables (tablesOf k) ak (length (handles s)) s1) as [s2 th2] eqn:A.
    destruct (addToTables_facts _ _ _ _ _ _ A) as (F1 & F2 & F3 & F4 & F5).
    destruct th2; injection E as <- <-.
    + split; [intros t n i F; apply F4; rewrite T1; exact F|]. split; [exact F1|]. split; [exact F3|]. split; [exact F2|discriminate].
    + split; [intros t n i F; rewrite U; apply F4; rewrite T1; exact F|]. split; [exact F1|]. split; [exact F3|]. split; [cbn [uids setUids]; rewrite F2; reflexivity|].
      intros _ _ t T. rewrite U. apply F5; auto.
Qed.
Lemma faithful_enter gen id k key ty u s s' th : addHandle gen (fst id) (snd id) k key ty u s = (s', th) -> faithful s -> faithful s'.
Proof.
  intros E F. destruct (addHandle_facts _ _ _ _ _ _ _ _ _ E) as (_ & H & _ & U & _). intros id' i FU. rewrite H. rewrite U in FU.
  assert (OLD : findUid id' (uids s) = Some i -> exists h, nth_error (handles s ++ [mkInfo id k (actKey gen k key s) ty u]) i = Some h /\ h_id h = id').
  { intros FU'. destruct (F _ _ FU') as (h & N & I). exists h. split; [|exact I]. rewrite nth_error_app1; [exact N|]. apply nth_error_Some. congruence. }
  destruct th; [apply OLD; exact FU|]. rewrite findUid_emplace in FU. destruct (findUid id' (uids s)) as [j|]; [injection FU as <-; apply OLD; reflexivity|].
  destruct (handleEq id id') eqn:B; [|discriminate]. injection FU as <-. apply handleEq_iff in B. subst id'. eexists. split; [apply nth_last|reflexivity].
Qed.
Lemma tabKind_map t : getMap (tabKind t) = t.
Proof. destruct t; reflexivity. Qed.
Lemma find_isFound n t s : (exists i, find n (tab t s) = Some i /\ nth_error (handles s) i <> None) -> isFound n (tabKind t) s = true.
Proof.
  intros (i & F & N). unfold isFound, getInterfaceHandle, deref. rewrite tabKind_map, F. destruct (nth_error (handles s) i); [|congruence]. destruct t; reflexivity.
Qed.
Lemma enter_found gen k n id ty u fg b b1 : enter gen k n id ty u fg b = Some b1 -> actKey gen k n (hs b) <> [] ->
  forall t, In t (tablesOf k) -> isFound (actKey gen k n (hs b)) (tabKind t) (hs b1) = true.
Proof.
  unfold enter. destruct (addHandle _ _ _ _ _ _ _ _) as [s []] eqn:E; [discriminate|]. injection 1 as <-. intros NE t T. destruct (addHandle_facts _ _ _ _ _ _ _ _ _ E) as (_ & H & _ & _ & F).
  apply find_isFound. cbn [hs]. exists (length (handles (hs b))). split; [apply (F eq_refl NE t T)|]. rewrite H, nth_last. discriminate.
Qed.

(** ** histories *)
Inductive reachable (gen : kind -> nat -> name) : rb -> Prop :=
| reachable_start : reachable gen start
| reachable_step b o b' out : reachable gen b -> step gen o b = Ok b' out -> reachable gen b'.
(** the states a sequence of commands leads to *)
Inductive steps (gen : kind -> nat -> name) : rb -> list op -> rb -> Prop :=
| steps_nil b : steps gen b [] b
| steps_cons b o b1 out l b2 : step gen o b = Ok b1 out -> steps gen b1 l b2 -> steps gen b (o :: l) b2.

Lemma setNth_other {A} i j (x : A) l : i <> j -> nth_error (setNth i x l) j = nth_error l j.
Proof. intros N. rewrite nth_setNth. destruct (Nat.eqb i j) eqn:E; [apply Nat.eqb_eq in E; contradiction|reflexivity]. Qed.
Lemma remove_uids h s : uids (removeHandle h s) = eraseUid h (uids s) /\ (forall i, findUid h (uids s) <> Some i -> nth_error (handles (removeHandle h s)) i = nth_error (handles s) i) \/ removeHandle h s = s.
Proof.
  unfold removeHandle. destruct (findUid h (uids s)) as [i|] eqn:F; [|right; reflexivity]. left. set (inf := nth i (handles s) blank).
  set (s1 := setUids (eraseUid h (uids s)) s). destruct (eraseTables_spec (h_key inf) (removeTables (h_kind inf)) s1) as (E1 & E2 & E3 & _).
  assert (G : forall s2, uids s2 = uids s1 -> handles s2 = handles s1 -> uids (setHandles (setNth i blank (handles s2)) s2) = eraseUid h (uids s) /\
    (forall j, Some i <> Some j -> nth_error (handles (setHandles (setNth i blank (handles s2)) s2)) j = nth_error (handles s) j)).
  { intros s2 U H. split; [exact U|]. intros j N. cbn [handles setHandles]. rewrite H. apply setNth_other. congruence. }
  destruct (h_key inf) eqn:K; [apply G; reflexivity|apply G; assumption].
Qed.
Lemma faithful_remove h s : faithful s -> faithful (removeHandle h s).
Proof.
  intros F. destruct (remove_uids h s) as [[U N]| ->]; [|exact F]. intros id i E. rewrite U, findUid_erase in E. destruct (handleEq h id) eqn:B; [discriminate|].
  destruct (F _ _ E) as (x & X & I). exists x. split; [|exact I]. rewrite N; [exact X|]. intros E'. destruct (F _ _ E') as (x' & X' & I'). assert (x = x') by congruence. subst x'.
  rewrite I in I'. subst h. rewrite handleEq_refl in B. discriminate.
Qed.
Lemma faithful_removeFed fed s : faithful s -> faithful (removeFederateHandles fed s).
Proof. unfold removeFederateHandles. generalize (seq 0 (length (handles s))) as l. intros l. revert s. induction l as [|i l IH]; intros s F; [exact F|]. cbn [fold_left]. apply IH. destruct (_ =? fed)%Z; [apply faithful_remove|]; exact F. Qed.
(** aliases do not touch the handles *)
Definition sameHandles (s s' : hm) : Prop := handles s' = handles s /\ uids s' = uids s.
Lemma tableAliases_same l i a : forall s s' th, addTableAliases l i a s = (s', th) -> sameHandles s s'.
Proof.
  induction l as [|t l IH]; intros s s' th E; cbn [addTableAliases] in E; [injection E as <- _; split; reflexivity|]. destruct (addTableAlias i a (tab t s)) as [m []].
  - injection E as <- _. destruct (setTab_frame t m s) as (A & B & _). split; assumption.
  - destruct (IH _ _ _ E) as [A B]. destruct (setTab_frame t m s) as (C & D & _). split; congruence.
Qed.
Lemma cascade_same l skip i : forall s s' th, cascadeAliases l skip i s = (s', th) -> sameHandles s s'.
Proof.
  induction l as [|o l IH]; intros s s' th E; cbn [cascadeAliases] in E; [injection E as <- _; split; reflexivity|]. destruct (beq o skip); [apply (IH _ _ _ E)|].
  destruct (addTableAliases aliasTables o i s) as [s1 []] eqn:A.
  - injection E as <- _. apply (tableAliases_same _ _ _ _ _ _ A).
  - destruct (IH _ _ _ E). destruct (tableAliases_same _ _ _ _ _ _ A). split; congruence.
Qed.
Lemma aliasHalf_same i a skip s s' th : addAliasHalf i a skip s = AOk s' th -> sameHandles s s'.
Proof.
  unfold addAliasHalf. destruct (addAliasName _ _ _ _ _) as [al c| |]; try discriminate. destruct (if c then _ else _) as [s1 []] eqn:C.
  - injection 1 as <- _. destruct c; [|discriminate]. apply (cascade_same _ _ _ _ _ _ C).
  - destruct (addTableAliases aliasTables i a s1) as [s2 t2] eqn:A. injection 1 as <- _. destruct (tableAliases_same _ _ _ _ _ _ A) as [X Y].
    destruct c; [|injection C as <-; split; assumption]. destruct (cascade_same _ _ _ _ _ _ C) as [X' Y']. split; [rewrite X, X'|rewrite Y, Y']; reflexivity.
Qed.
Lemma alias_same i a s s' th : addAlias i a s = AOk s' th -> sameHandles s s'.
Proof.
  unfold addAlias. destruct (addAliasHalf i a a s) as [s1 []| |] eqn:A; try discriminate; intros E.
  - injection E as <- _. apply (aliasHalf_same _ _ _ _ _ _ A).
  - destruct (aliasHalf_same _ _ _ _ _ _ A), (aliasHalf_same _ _ _ _ _ _ E). split; congruence.
Qed.
Lemma faithful_same s s' : sameHandles s s' -> faithful s -> faithful s'.
Proof. intros [A B] F id i. rewrite A, B. apply F. Qed.

Lemma anonymous_faithful gen q b b' out : enterAnonymous gen q b = Ok b' out -> faithful (hs b) -> faithful (hs b').
Proof.
  unfold enterAnonymous, enter. intros E F.
  destruct (q_strings q) as [[ty u]|], (q_tab q); try (injection E as <- _; exact F).
  all: destruct (findHandle (q_src q) (hs b)); try (injection E as <- _; exact F).
  all: destruct (addHandle _ _ _ _ _ _ _ _) as [s []] eqn:A; [discriminate|]; injection E as <- _; cbn [hs]; apply (faithful_enter _ _ _ _ _ _ _ _ _ A F).
Qed.
Lemma named_faithful gen q b b' out : checkForNamedInterface gen q b = Ok b' out -> faithful (hs b) -> faithful (hs b').
Proof.
  unfold checkForNamedInterface. set (b0 := if checkActionFlag (q_flags q) reconnectable_flag then _ else b). assert (H0 : hs b0 = hs b) by (unfold b0; destruct (checkActionFlag _ _); reflexivity). clearbody b0. intros E F. rewrite <- H0 in F.
  destruct (getInterfaceHandle _ _ _); [apply (anonymous_faithful _ _ _ _ _ E F)|injection E as <- _; exact F|apply (anonymous_faithful _ _ _ _ _ E F)].
Qed.

Lemma bind_faithful r f b' out : bind r f = Ok b' out -> (forall b o, r = Ok b o -> faithful (hs b)) -> (forall b b' o, f b = Ok b' o -> faithful (hs b) -> faithful (hs b')) -> faithful (hs b').
Proof. intros E R F. apply bind_ok in E. destruct E as (b1 & o1 & o2 & E1 & E2 & _). apply (F _ _ _ E2). apply (R _ _ E1). Qed.
Lemma nameAll_faithful gen l : forall b b' out, nameAll gen l b = Ok b' out -> faithful (hs b) -> faithful (hs b').
Proof.
  induction l as [|q l IH]; intros b b' out E F; [injection E as <- _; exact F|]. cbn [nameAll] in E. apply bind_ok in E. destruct E as (b1 & o1 & o2 & E1 & E2 & _).
  apply (IH _ _ _ E2). apply (named_faithful _ _ _ _ _ E1 F).
Qed.
Lemma notify_faithful gen t x key b b' out : findAndNotify gen t x key b = Ok b' out -> faithful (hs b) -> faithful (hs b').
Proof.
  intros E F. destruct t; cbn [findAndNotify] in E.
  - unfold findAndNotifyPublicationTargets in E. apply bind_ok in E. destruct E as (b1 & o1 & o3 & E1 & E2 & _). apply bind_ok in E1. destruct E1 as (b0 & o0 & o2 & E0 & E1 & _). injection E0 as <- _.
    injection E2 as <- _. apply nameAll_faithful in E1; [|exact F]. destruct (_ && _); exact E1.
  - unfold findAndNotifyEndpointTargets in E. apply bind_ok in E. destruct E as (b1 & o1 & o3 & E1 & E2 & _). apply bind_ok in E1. destruct E1 as (b0 & o0 & o2 & E0 & E1 & _).
    unfold orCrash in E0. destruct (connectEndpoints _ _ _); [|discriminate]. injection E0 as <- _. apply nameAll_faithful in E1; [|exact F].
    match type of E2 with (if operating ?X then _ else _) = _ => assert (FX : faithful (hs X)) by (destruct (_ && _); exact E1); revert E2 FX; generalize X end. intros b2 E2 FX.
    destruct (operating b2); [|injection E2 as <- _; exact FX]. unfold orCrash in E2. destruct (connectEndpoints _ _ _); [|discriminate]. injection E2 as <- _. exact FX.
  - injection E as <- _. destruct (empty _); exact F.
  - unfold findAndNotifyFilterTargets in E. apply bind_ok in E. destruct E as (b1 & o1 & o3 & E1 & E2 & _). apply bind_ok in E1. destruct E1 as (b0 & o0 & o2 & E0 & E1 & _). apply bind_ok in E0. destruct E0 as (bx & ox & oy & EX & E0 & _). injection EX as <- _.
    injection E2 as <- _. apply nameAll_faithful in E0; [|exact F]. apply nameAll_faithful in E1; [|exact E0]. destruct (_ && _ && _); exact E1.
Qed.
Lemma notifyAll_faithful gen x l : forall b b' out, notifyAll gen l x b = Ok b' out -> faithful (hs b) -> faithful (hs b').
Proof.
  induction l as [|t l IH]; intros b b' out E F; [injection E as <- _; exact F|]. cbn [notifyAll] in E. apply bind_ok in E. destruct E as (b1 & o1 & o2 & E1 & E2 & _).
  apply (IH _ _ _ E2). apply (notify_faithful _ _ _ _ _ _ _ E1 F).
Qed.
Lemma link_faithful gen l s d fg b b' out : link gen l s d fg b = Ok b' out -> faithful (hs b) -> faithful (hs b').
Proof.
  unfold link. intros E F. destruct l; repeat (match type of E with context [match ?X with Null => _ | _ => _ end] => destruct X end);
  try (apply (named_faithful _ _ _ _ _ E F)); injection E as <- _; exact F.
Qed.
Lemma linkKnown_faithful gen l : forall b b' out, linkKnown gen l b = Ok b' out -> faithful (hs b) -> faithful (hs b').
Proof.
  induction l as [|[[s ks] [d kd]] l IH]; intros b b' out E F; [injection E as <- _; exact F|]. cbn [linkKnown] in E. apply bind_ok in E. destruct E as (b1 & o1 & o2 & E1 & E2 & _).
  apply (IH _ _ _ E2). destruct (getInterfaceHandle s ks (hs b)); try (injection E1 as <- _; exact F). destruct (getInterfaceHandle d kd (hs b)); try (injection E1 as <- _; exact F).
  destruct ks; try (apply (link_faithful _ _ _ _ _ _ _ _ E1 F)); try (injection E1 as <- _; exact F). destruct kd; try (injection E1 as <- _; exact F). apply (link_faithful _ _ _ _ _ _ _ _ E1 F).
Qed.
Lemma notifyNames_faithful gen t l : forall b b' out, notifyNames gen t l b = Ok b' out -> faithful (hs b) -> faithful (hs b').
Proof.
  induction l as [|n l IH]; intros b b' out E F; [injection E as <- _; exact F|]. cbn [notifyNames] in E. apply bind_ok in E. destruct E as (b1 & o1 & o2 & E1 & E2 & _).
  apply (IH _ _ _ E2). destruct (getInterfaceHandle _ _ _); try discriminate. apply (notify_faithful _ _ _ _ _ _ _ E1 F).
Qed.
Lemma resolve_faithful gen m b b' out : resolve gen m b = Ok b' out -> faithful (hs b) -> faithful (hs b').
Proof.
  unfold resolve. intros E F. destruct (hasUnknowns (un b)); [|injection E as <- _; exact F]. apply bind_ok in E. destruct E as (b1 & o1 & o2 & E1 & E2 & _). apply linkKnown_faithful in E1; [|exact F].
  apply bind_ok in E2. destruct E2 as (b2 & o3 & o4 & E2 & E3 & _). apply bind_ok in E2. destruct E2 as (b3 & o5 & o6 & E2 & E4 & _). apply bind_ok in E2. destruct E2 as (b4 & o7 & o8 & E2 & E5 & _). apply bind_ok in E2. destruct E2 as (b5 & o9 & o10 & E2 & E6 & _).
  apply notifyNames_faithful in E2; [|exact E1]. apply notifyNames_faithful in E6; [|exact E2]. apply notifyNames_faithful in E5; [|exact E6]. apply notifyNames_faithful in E4; [|exact E5].
  destruct (existsb _ _); injection E3 as <- _; exact E4.
Qed.
Lemma begin_same strict b b' out : begin strict b = Ok b' out -> b' = b \/ b' = operate b.
Proof. unfold begin. intros E. destruct (_ && _ && _); [injection E as <- _; auto|]. destruct (hasNonOptionalUnknowns _); [|injection E as <- _; auto]. destruct (hasRequiredUnknowns _); injection E as <- _; auto. Qed.
Lemma begin_faithful strict b b' out : begin strict b = Ok b' out -> faithful (hs b) -> faithful (hs b').
Proof. intros E F. apply begin_same in E. destruct E as [->| ->]; exact F. Qed.
Lemma step_faithful gen o b b' out : step gen o b = Ok b' out -> faithful (hs b) -> faithful (hs b').
Proof.
  assert (D : forall p b, faithful (hs b) -> faithful (hs (dropFed p b))). { intros [f r] c F. unfold dropFed. cbn [fst snd]. destruct r; [|exact F]. cbn [hs setHs setBad]. apply faithful_removeFed. exact F. }
  assert (G : forall f b, hs (forget f b) = hs b) by (intros f c; unfold forget; destruct (operating c); reflexivity).
  intros E F. destruct o; cbn [step] in E.
  - apply (named_faithful _ _ _ _ _ E F).
  - unfold registerInterface in E. destruct (existingName _ _ _ || _); [injection E as <- _; exact F|]. unfold enter in E. destruct (addHandle _ _ _ _ _ _ _ _) as [s1 []] eqn:A; [discriminate|].
    apply (notifyAll_faithful _ _ _ _ _ _ E). cbn [hs]. apply (faithful_enter _ _ _ _ _ _ _ _ _ A F).
  - apply (link_faithful _ _ _ _ _ _ _ _ E F).
  - destruct (addAlias i a (hs b)) as [s1 th| |] eqn:A; try discriminate. injection E as <- _. apply (faithful_same _ _ (alias_same _ _ _ _ _ A) F).
  - injection E as <- _. rewrite G. apply (D (fed, reentrant)), F.
  - injection E as <- _. rewrite G. clear G. revert b F. induction feds as [|p l IH]; intros b F; [exact F|]. cbn [fold_left]. apply IH, D, F.
  - injection E as <- _. apply faithful_remove, F.
  - injection E as <- _. exact F.
  - unfold executeInitializationOperations in E. destruct (hasUnknowns (un b)); [|injection E as <- _; exact F]. apply bind_ok in E. destruct E as (b1 & o1 & o2 & E1 & E2 & _).
    apply (begin_faithful _ _ _ _ E2). apply (resolve_faithful _ _ _ _ _ E1 F).
Qed.
Lemma reachable_faithful gen b : reachable gen b -> faithful (hs b).
Proof. induction 1 as [|b o b' out R IH E]; [intros id i H; discriminate|apply (step_faithful _ _ _ _ _ E IH)]. Qed.

(** ** registration *)
(** [ps] introduces [x] to each of [l] in turn *)
Definition introductions (t : table) (x : Z * Z) (l : list target) (o : list notice) : Prop :=
  exists ps, o = concat ps /\ Forall2 (fun e => introduces t x (fst e)) l ps.
Lemma introductions_length t x l o : introductions t x l o -> length o = (2 * length l)%nat.
Proof.
  intros (ps & -> & F). induction F as [|e p l ps (a & c & [->| ->] & _) F IH]; [reflexivity|cbn [concat app length]; rewrite IH; cbn [length]; lia..].
Qed.
Definition quietAll (l : list table) (b : rb) (key : name) : Prop := forall t, In t l -> quietOut t b key.
Lemma notifyAll_spec gen x l : forall b b' out, faithful (hs b) -> NoDup l -> (forall t, In t l -> isFound (h_key x) (tabKind t) (hs b) = true) -> notifyAll gen l x b = Ok b' out ->
  hs b' = hs b /\ bad b' = bad b /\ operating b' = operating b /\
  (forall t, In t l -> waiting b' t (h_key x) = [] /\ exists pre o post, out = pre ++ o ++ post /\ introductions t (h_id x) (waiting b t (h_key x)) o) /\
  (forall t n, ~ (In t l /\ n = h_key x) -> exists new, waiting b' t n = waiting b t n ++ new /\ Forall (fun e => fst e = h_id x) new /\
     (resolves b t n -> new = []) /\ ((forall t, In t l -> linksOf t b (h_key x) = []) -> new = [])) /\
  (quietAll l b (h_key x) -> length out = (2 * list_sum (map (fun t => length (waiting b t (h_key x))) l))%nat).
Proof.
  induction l as [|t l IH]; intros b b' out FA ND IF E.
  - injection E as <- <-. split; [reflexivity|]. split; [reflexivity|]. split; [reflexivity|]. split; [intros t []|]. split; [intros t n _; exists []; rewrite app_nil_r; repeat split; constructor|reflexivity].
  - cbn [notifyAll] in E. apply bind_ok in E. destruct E as (b1 & o1 & o2 & E1 & E2 & ->). inversion ND as [|? ? NI ND']; subst.
    pose proof (notify_spec _ _ _ _ _ _ _ FA (IF t (or_introl eq_refl)) E1) as (H1 & H2 & H3 & (ps & rest & EO & F2 & Q) & W & LK & RC).
    assert (IF1 : forall t', In t' l -> isFound (h_key x) (tabKind t') (hs b1) = true) by (intros t' T'; rewrite H1; apply IF; right; exact T').
    rewrite <- H1 in FA. destruct (IH _ _ _ FA ND' IF1 E2) as (G1 & G2 & G3 & G4 & G5 & G6). rewrite H1 in FA.
    assert (OF : forall t', isFound (h_key x) (tabKind t') (hs b) = true -> opened (linkReqs t x b (h_key x)) (hs b) t' (h_key x) = []) by (intros; apply opened_found; assumption).
    assert (SRC : forall t' n, Forall (fun e => fst e = h_id x) (opened (linkReqs t x b (h_key x)) (hs b) t' n)).
    { intros t' n. unfold opened. rewrite Forall_map. apply Forall_forall. intros q Hq. apply filter_In in Hq. destruct Hq as [Hq _]. pose proof (linkReqs_src t x b (h_key x)) as LS. rewrite Forall_forall in LS. apply (LS _ Hq). }
    split; [congruence|]. split; [congruence|]. split; [congruence|].
    assert (SAME : forall t', In t' l -> waiting b1 t' (h_key x) = waiting b t' (h_key x)).
    { intros t' T'. rewrite W, OF by (apply IF; right; exact T'). rewrite app_nil_r. destruct (table_eqb t t') eqn:TE; [|reflexivity]. apply table_eqb_eq in TE. subst t'. contradiction. }
    assert (W0 : waiting b1 t (h_key x) = []) by (rewrite W, OF by (apply IF; left; reflexivity); rewrite table_eqb_refl, beq_refl; reflexivity).
    split; [|split].
    + intros t' [<-|T'].
      * split; [|exists [], (concat ps), (rest ++ o2); split; [rewrite EO, <- app_assoc; reflexivity|exists ps; split; [reflexivity|exact F2]]].
        destruct (G5 t (h_key x)) as (new & N1 & _ & N3 & _); [tauto|]. rewrite N1, W0. apply N3. apply isFound_iff. rewrite H1. apply IF. left. reflexivity.
      * destruct (G4 t' T') as (A & pre & o & post & -> & B). split; [exact A|]. exists (o1 ++ pre), o, post. split; [rewrite <- !app_assoc; reflexivity|]. rewrite SAME in B by exact T'. exact B.
    + intros t' n NT. destruct (G5 t' n) as (new & N1 & N2 & N3 & N4); [intros [A B]; apply NT; split; [right; exact A|exact B]|]. rewrite W in N1.
      assert (TF : table_eqb t t' && beq (h_key x) n = false).
      { destruct (table_eqb t t') eqn:TE; [|reflexivity]. apply table_eqb_eq in TE. subst t'. destruct (beq (h_key x) n) eqn:BE; [|reflexivity]. apply beq_eq in BE. destruct NT. split; [left; reflexivity|congruence]. }
      rewrite TF in N1. exists (opened (linkReqs t x b (h_key x)) (hs b) t' n ++ new). rewrite app_assoc. split; [exact N1|]. split; [apply Forall_app; split; [apply SRC|exact N2]|]. split.
      * intros R. rewrite (opened_found _ _ _ _ (proj2 (isFound_iff b t' n) R)). cbn. apply N3. destruct R as (i & y & R). exists i, y. rewrite H1. exact R.
      * intros L. rewrite (linkReqs_nil _ _ _ _ (L t (or_introl eq_refl))). cbn. apply N4. intros t'' T''. specialize (L t'' (or_intror T'')). destruct t''; cbn [linksOf] in *; try reflexivity; try (apply LK; exact L).
        apply app_eq_nil in L. destruct L as [L1 L2]. rewrite (LK _ _ L1), (LK _ _ L2). reflexivity.
    + intros QA. rewrite app_length. cbn [map list_sum]. rewrite EO, (Q (QA t (or_introl eq_refl))), app_nil_r.
      rewrite (introductions_length t (h_id x) (waiting b t (h_key x))) by (exists ps; auto). rewrite G6.
      * rewrite (map_ext_in _ (fun t => length (waiting b t (h_key x)))) by (intros t' T'; rewrite SAME by exact T'; reflexivity). unfold list_sum. cbn [fold_right]. lia.
      * intros t' T'. destruct (QA t' (or_intror T')) as [Q1 Q2]. split.
        { destruct t'; cbn [linksOf] in *; try reflexivity; try (apply LK; exact Q1). apply app_eq_nil in Q1. destruct Q1 as [L1 L2]. rewrite (LK _ _ L1), (LK _ _ L2). reflexivity. }
        { intros O. rewrite H3 in O. unfold reconnections. rewrite RC; [apply Q2; exact O|]. apply (QA t (or_introl eq_refl)). }
Qed.
Lemma notifies_tables k t : In t (notifies k) <-> In t (tablesOf k).
Proof. destruct k, t; cbn; intuition congruence. Qed.
Lemma notifies_nodup k : NoDup (notifies k).
Proof. destruct k; cbn; repeat constructor; cbn; intuition congruence. Qed.

Lemma register_spec gen b k n id ty u fg may b' out : faithful (hs b) -> actKey gen k n (hs b) <> [] -> step gen (ORegister k n id ty u fg may) b = Ok b' out ->
  let key := actKey gen k n (hs b) in
  (b' = b /\ (exists a, out = [a] /\ n_verb a = REFUSED /\ n_dst a = id) /\
    (may = false \/ exists asked, (asked = k \/ k = TRANSLATOR /\ In asked [ENDPOINT; INPUT; PUBLICATION]) /\ getInterfaceHandle n asked (hs b) <> Null)) \/
  (may = true /\ operating b' = operating b /\
   (forall t, In t (tablesOf k) -> resolves b' t key /\ waiting b' t key = [] /\ exists pre o post, out = pre ++ o ++ post /\ introductions t id (waiting b t key) o) /\
   (forall t m, ~ (In t (tablesOf k) /\ m = key) -> exists new, waiting b' t m = waiting b t m ++ new /\ Forall (fun e => fst e = id) new /\ (resolves b' t m -> new = []) /\
      ((forall t, In t (tablesOf k) -> linksOf t b key = []) -> new = [])) /\
   ((forall t, In t (tablesOf k) -> linksOf t b key = [] /\ (operating b = true -> reconnections b t key = [])) ->
      length out = (2 * list_sum (map (fun t => length (waiting b t key)) (notifies k)))%nat) /\
   exists b1, enter gen k n id ty u fg b = Some b1 /\ hs b' = hs b1).
Proof.
  intros R NE E key. cbn [step] in E. unfold registerInterface in E. destruct (existingName k n (hs b) || negb may) eqn:X.
  - left. injection E as <- <-. split; [reflexivity|]. split; [eexists; split; [reflexivity|split; reflexivity]|]. apply orb_true_iff in X. destruct X as [X|X]; [right|left; destruct may; [discriminate|reflexivity]].
    assert (G : forall k, match getInterfaceHandle n k (hs b) with Null => false | _ => true end = true -> getInterfaceHandle n k (hs b) <> Null) by (intros k' G; destruct (getInterfaceHandle n k' (hs b)); discriminate).
    unfold existingName in X. destruct k; try (eexists; split; [left; reflexivity|apply (G _ X)]).
    apply orb_true_iff in X. destruct X as [X|X]; [apply orb_true_iff in X; destruct X as [X|X]|]; (eexists; split; [right; split; [reflexivity|]|apply (G _ X)]); cbn; auto.
  - right. apply orb_false_iff in X. destruct X as [_ M]. split; [destruct may; [reflexivity|discriminate]|]. destruct (enter gen k n id ty u fg b) as [b1|] eqn:EN; [|discriminate].
    pose proof (enter_found _ _ _ _ _ _ _ _ _ EN) as EF. fold key in EF, NE, E. specialize (EF NE). destruct (enter_frame _ _ _ _ _ _ _ _ _ EN) as (U & _ & OP).
    assert (FA : faithful (hs b1)) by (revert EN; unfold enter; destruct (addHandle _ _ _ _ _ _ _ _) as [s1 []] eqn:A; [discriminate|]; injection 1 as <-; apply (faithful_enter _ _ _ _ _ _ _ _ _ A R)).
    destruct (notifyAll_spec _ (mkInfo id k key ty u) _ _ _ _ FA (notifies_nodup k) (fun t T => EF t (proj1 (notifies_tables k t) T)) E) as (H1 & _ & H3 & H4 & H5 & H6). cbn [h_key h_id] in *.
    assert (WS : forall t m, waiting b1 t m = waiting b t m) by (intros; unfold waiting; rewrite U; reflexivity).
    assert (LS : forall t m, linksOf t b1 m = linksOf t b m) by (intros; unfold linksOf, linked_to; rewrite U; reflexivity).
    split; [congruence|]. split; [|split; [|split]].
    + intros t T. destruct (H4 t (proj2 (notifies_tables k t) T)) as (A & pre & o & post & B & C). split; [apply isFound_iff; rewrite H1; apply EF; exact T|]. split; [exact A|].
      exists pre, o, post. rewrite WS in C. split; assumption.
    + intros t m N. destruct (H5 t m) as (new & A & B & C & D); [rewrite notifies_tables; exact N|]. rewrite WS in A. exists new. split; [exact A|]. split; [exact B|]. split.
      * intros (i & y & RS). apply C. exists i, y. rewrite <- H1. exact RS.
      * intros L. apply D. intros t' T'. rewrite LS. apply L, notifies_tables, T'.
    + intros Q. rewrite H6; [f_equal; f_equal; apply map_ext; intros; rewrite WS; reflexivity|]. intros t T. destruct (Q t (proj1 (notifies_tables k t) T)) as [Q1 Q2]. split; [rewrite LS; exact Q1|].
      intros O. unfold reconnections. rewrite U. apply Q2. congruence.
    + exists b1. split; [reflexivity|exact H1].
Qed.
Lemma actKey_given gen k n s : n <> [] -> actKey gen k n s = n.
Proof. unfold actKey. destruct n; [congruence|reflexivity]. Qed.

(** When an interface is registered under [n] and not refused, every open request for [n] of a kind the interface serves is
    answered: the requester is told about the interface and the interface about the requester, once per request.  No request
    for this name and these kinds stays open, no other open request is touched (links by name may open new ones on behalf of the
    new interface), and nothing else is sent unless there are links under this name or reconnectable requests while operating. *)
Theorem C29_registration_answers_the_open_requests gen b k n id ty u fg may b' out : reachable gen b -> n <> [] ->
  step gen (ORegister k n id ty u fg may) b = Ok b' out ->
  (b' = b /\ (exists a, out = [a] /\ n_verb a = REFUSED /\ n_dst a = id) /\
    (may = false \/ exists asked, (asked = k \/ k = TRANSLATOR /\ In asked [ENDPOINT; INPUT; PUBLICATION]) /\ getInterfaceHandle n asked (hs b) <> Null)) \/
  ((forall t, In t (tablesOf k) -> resolves b' t n /\ waiting b' t n = [] /\ exists pre o post, out = pre ++ o ++ post /\ introductions t id (waiting b t n) o) /\
   (forall t m, ~ (In t (tablesOf k) /\ m = n) -> exists new, waiting b' t m = waiting b t m ++ new /\ Forall (fun e => fst e = id) new /\
      ((forall t, In t (tablesOf k) -> linksOf t b n = []) -> new = [])) /\
   ((forall t, In t (tablesOf k) -> linksOf t b n = [] /\ (operating b = true -> reconnections b t n = [])) ->
      length out = (2 * list_sum (map (fun t => length (waiting b t n)) (notifies k)))%nat)).
Proof.
  intros R NE E. assert (KN : actKey gen k n (hs b) <> []) by (rewrite actKey_given; assumption). destruct (register_spec _ _ _ _ _ _ _ _ _ _ _ (reachable_faithful _ _ R) KN E) as [H|(_ & _ & H1 & H2 & H3 & _)]; [left; exact H|right].
  rewrite actKey_given in * by exact NE. split; [exact H1|]. split; [|exact H3]. intros t m N. destruct (H2 t m N) as (new & A & B & _ & C). exists new. auto.
Qed.

(** ** open until answered *)
Definition mine (fed : Z) (l : list target) : list target := filter (fun e => (fst (fst e) =? fed)%Z) l.
Lemma mine_app f a c : mine f (a ++ c) = mine f a ++ mine f c.
Proof. apply filter_app. Qed.
(** the commands which can end the waiting of a request by federate [fed] for [n] of kind [t]: the registration of this name
    (or of a name the broker makes up), the departure of the federate, the start of the federation *)
Definition mayClose (t : table) (n : name) (fed : Z) (o : op) : Prop :=
  match o with
  | ORegister k m _ _ _ _ _ => In t (tablesOf k) /\ (m = n \/ m = [])
  | ODisconnect f _ => f = fed
  | OBroker id _ => id = fed
  | OInit _ _ => True
  | _ => False
  end.
Lemma forget_waiting f b t n : waiting (forget f b) t n = if operating b then waiting b t n else filter (fun e => negb (fst (fst e) =? f)%Z) (waiting b t n).
Proof.
  unfold forget. destruct (operating b); [reflexivity|]. unfold waiting. cbn [un setUn clearFederateUnknowns clearUnknownsIf unk].
  exact (getTargets_filter n (fun v : target => (fst (fst v) =? f)%Z) (unk (un b) t)).
Qed.
Lemma dropFed_frame p b : un (dropFed p b) = un b /\ operating (dropFed p b) = operating b.
Proof. destruct p as [f []]; split; reflexivity. Qed.
Lemma dropFeds_frame l : forall b, un (fold_left (fun b p => dropFed p b) l b) = un b /\ operating (fold_left (fun b p => dropFed p b) l b) = operating b.
Proof. induction l as [|p l IH]; intros b; [split; reflexivity|]. cbn [fold_left]. destruct (IH (dropFed p b)) as [-> ->]. apply dropFed_frame. Qed.
Lemma link_spec gen l s d fg b b' out : link gen l s d fg b = Ok b' out -> operating b' = operating b /\ bad b' = bad b /\ forall t n, exists new, waiting b' t n = waiting b t n ++ new /\ (resolves b t n -> new = []).
Proof.
  assert (C : forall q, checkForNamedInterface gen q b = Ok b' out -> operating b' = operating b /\ bad b' = bad b /\ forall t n, exists new, waiting b' t n = waiting b t n ++ new /\ (resolves b t n -> new = [])).
  { intros q E. apply named_spec in E. destruct E as ((_ & A & B) & _ & _ & E). split; [exact B|]. split; [exact A|]. intros t n. destruct E as [(_ & _ & _ & _ & _ & W)|(N & _ & W)]; [exists []; rewrite app_nil_r; split; [apply W|reflexivity]|].
    eexists. split; [apply W|]. intros R. destruct (table_eqb (q_tab q) t) eqn:T; [|reflexivity]. apply table_eqb_eq in T. subst t. destruct (beq (q_name q) n) eqn:B'; [|reflexivity]. apply beq_eq in B'. subst n. contradiction. }
  assert (S0 : Ok (setUn (addLink l s d (un b)) b) [] = Ok b' out -> operating b' = operating b /\ bad b' = bad b /\ forall t n, exists new, waiting b' t n = waiting b t n ++ new /\ (resolves b t n -> new = [])).
  { injection 1 as <- <-. split; [reflexivity|]. split; [reflexivity|]. intros t n. exists []. rewrite app_nil_r. split; reflexivity. }
  unfold link. intros E. destruct l; repeat (match type of E with context [match ?X with Null => _ | _ => _ end] => destruct X end); try (apply (C _ E)); apply (S0 E).
Qed.
Lemma step_keeps gen o b b' out t n fed : (forall k i, gen k i <> []) -> faithful (hs b) -> step gen o b = Ok b' out -> ~ mayClose t n fed o -> exists new, mine fed (waiting b' t n) = mine fed (waiting b t n) ++ new.
Proof.
  intros GN R E NC.
  assert (APP : (exists new, waiting b' t n = waiting b t n ++ new) -> exists new, mine fed (waiting b' t n) = mine fed (waiting b t n) ++ new) by (intros (new & ->); rewrite mine_app; eexists; reflexivity).
  assert (SAME : waiting b' t n = waiting b t n -> exists new, waiting b' t n = waiting b t n ++ new) by (intros ->; exists []; rewrite app_nil_r; reflexivity).
  assert (FG : forall f b0, f <> fed -> un b0 = un b -> operating b0 = operating b -> b' = forget f b0 -> exists new, mine fed (waiting b' t n) = mine fed (waiting b t n) ++ new).
  { intros f b0 NF U OP ->. exists []. rewrite app_nil_r, forget_waiting. assert (waiting b0 t n = waiting b t n) as -> by (unfold waiting; rewrite U; reflexivity). destruct (operating b0); [reflexivity|].
    unfold mine. clear - NF. induction (waiting b t n) as [|e l IH]; [reflexivity|]. cbn [filter]. destruct (fst (fst e) =? f)%Z eqn:A; cbn [negb filter].
    - apply Z.eqb_eq in A. assert ((fst (fst e) =? fed)%Z = false) as -> by (apply Z.eqb_neq; lia). exact IH.
    - destruct (fst (fst e) =? fed)%Z; [f_equal|]; exact IH. }
  destruct o.
  - apply APP. apply named_spec in E. destruct E as (_ & _ & _ & [(_ & _ & _ & _ & _ & W)|(_ & _ & W)]); [apply SAME, W|eexists; apply W].
  - apply APP. cbn [mayClose] in NC. assert (KN : actKey gen k n0 (hs b) <> []) by (unfold actKey; destruct n0; [apply GN|discriminate]).
    destruct (register_spec _ _ _ _ _ _ _ _ _ _ _ R KN E) as [(-> & _)|(_ & _ & _ & H2 & _)]; [apply SAME; reflexivity|].
    destruct (H2 t n) as (new & A & _); [|exists new; exact A]. intros [T K]. apply NC. split; [exact T|]. destruct n0; [right; reflexivity|left]. symmetry. exact K.
  - apply APP. apply link_spec in E. destruct E as (_ & _ & E). destruct (E t n) as (new & A & _). exists new. exact A.
  - apply APP, SAME. cbn [step] in E. destruct (addAlias i a (hs b)); try discriminate. injection E as <- _. reflexivity.
  - cbn [step mayClose] in *. injection E as <- _. apply (FG fed0 (dropFed (fed0, reentrant) b) NC); try apply dropFed_frame. reflexivity.
  - cbn [step mayClose] in *. injection E as <- _. eapply (FG id _ NC); [apply dropFeds_frame|apply dropFeds_frame|reflexivity].
  - apply APP, SAME. injection E as <- _. reflexivity.
  - apply APP, SAME. injection E as <- _. reflexivity.
  - destruct (NC I).
Qed.
Lemma steps_reachable gen b l b' : steps gen b l b' -> reachable gen b -> reachable gen b'.
Proof. induction 1; [auto|]. intros R. apply IHsteps. econstructor; eassumption. Qed.
Lemma steps_keep gen t n fed b l b' : (forall k i, gen k i <> []) -> reachable gen b -> steps gen b l b' -> Forall (fun o => ~ mayClose t n fed o) l -> exists new, mine fed (waiting b' t n) = mine fed (waiting b t n) ++ new.
Proof.
  intros GN R H. revert R. induction H as [b|b o b1 out l b2 E H IH]; intros R F; [exists []; rewrite app_nil_r; reflexivity|]. inversion F; subst.
  destruct (step_keeps _ _ _ _ _ t n fed GN (reachable_faithful _ _ R) E) as (n1 & A); [assumption|]. destruct (IH (reachable_step _ _ _ _ _ R E)) as (n2 & B); [assumption|]. exists (n1 ++ n2). rewrite B, A, app_assoc. reflexivity.
Qed.
Lemma hasUnknowns_iff b : hasUnknowns (un b) = true <-> (exists t n, waiting b t n <> []) \/ exists l n, linked_to b l n <> [].
Proof.
  assert (W : forall A (m : list (name * A)), (exists n, map snd (filter (fun e => beq (fst e) n) m) <> []) <-> empty m = false).
  { intros A m. split; [intros (n & H); destruct m; [destruct H; reflexivity|reflexivity]|]. destruct m as [|[n v] m]; [discriminate|]. intros _. exists n. cbn [filter fst]. rewrite beq_refl. discriminate. }
  unfold hasUnknowns. rewrite negb_true_iff. rewrite !andb_false_iff. split.
  - intros H. destruct H as [[[[[[[H|H]|H]|H]|H]|H]|H]|H]; apply W in H; destruct H as (n & H); [left; exists Pubs|left; exists Epts|left; exists Inps|left; exists Filts|right; exists LData|right; exists LEpt|right; exists LDst|right; exists LSrc]; exists n; exact H.
  - intros [([] & n & H)|([] & n & H)]; (assert (H' : exists n, _) by (exists n; exact H); apply W in H'; tauto).
Qed.
Lemma allUnknowns_in b t n e : In (t, (n, e)) (allUnknowns (un b)) <-> In e (waiting b t n).
Proof.
  assert (P : forall t', In (t, (n, e)) (map (pair t') (unk (un b) t')) <-> t' = t /\ In (n, e) (unk (un b) t)).
  { intros t'. rewrite in_map_iff. split; [intros (x & E & I); injection E as -> ->; auto|intros [-> I]; exists (n, e); auto]. }
  assert (Q : In e (waiting b t n) <-> In (n, e) (unk (un b) t)).
  { unfold waiting. rewrite in_map_iff. split; [intros ([n' e'] & E & I); cbn in E; subst e'; apply filter_In in I; destruct I as [I B]; apply beq_eq in B; cbn in B; subst n'; exact I|].
    intros I. exists (n, e). split; [reflexivity|]. apply filter_In. split; [exact I|]. cbn. apply beq_refl. }
  unfold allUnknowns. rewrite !in_app_iff, !P, Q. destruct t; intuition congruence.
Qed.

(** The life of a request for a name not known yet: until the name is registered, the requester leaves or the federation starts,
    the request stays open and is reported as unresolved ... *)
Theorem C29_open_until_registered gen q b b1 o1 l b2 : (forall k i, gen k i <> []) -> reachable gen b ->
  step gen (ORequest q) b = Ok b1 o1 -> ~ resolves b (q_tab q) (q_name q) ->
  steps gen b1 l b2 -> Forall (fun o => ~ mayClose (q_tab q) (q_name q) (fst (q_src q)) o) l ->
  In (q_src q, q_flags q) (waiting b2 (q_tab q) (q_name q)) /\ hasUnknowns (un b2) = true /\ In (q_tab q, (q_name q, (q_src q, q_flags q))) (allUnknowns (un b2)).
Proof.
  intros GN R E NR H F. destruct (C29_unknown_target_is_remembered _ _ _ _ _ E NR) as (_ & W & _).
  destruct (steps_keep _ _ _ _ _ _ _ GN (reachable_step _ _ _ _ _ R E) H F) as (new & K).
  assert (I : In (q_src q, q_flags q) (waiting b2 (q_tab q) (q_name q))).
  { assert (I : In (q_src q, q_flags q) (mine (fst (q_src q)) (waiting b2 (q_tab q) (q_name q)))).
    { rewrite K, W, mine_app. apply in_or_app. left. apply in_or_app. right. unfold mine. cbn [filter fst]. rewrite Z.eqb_refl. left. reflexivity. }
    apply filter_In in I. apply I. }
  split; [exact I|]. split; [apply hasUnknowns_iff; left; eexists; eexists; intros Z0; rewrite Z0 in I; destruct I|apply allUnknowns_in; exact I].
Qed.
Lemma introductions_in t x l o e : introductions t x l o -> In e l -> exists pre p post, o = pre ++ p ++ post /\ introduces t x (fst e) p.
Proof.
  intros (ps & -> & F) I. induction F as [|e' p l ps IP F IH]; [destruct I|]. destruct I as [<-|I].
  - exists [], p, (concat ps). split; [reflexivity|exact IP].
  - destruct (IH I) as (pre & p' & post & E & IP'). exists (p ++ pre), p', post. cbn [concat]. rewrite E, <- app_assoc. split; [reflexivity|exact IP'].
Qed.
(** ... and the first accepted registration of that name by an interface of a fitting kind answers it, after which it is gone. *)
Theorem C29_answered_by_the_registration gen q b b1 o1 l b2 k id ty u fg b3 out : (forall k i, gen k i <> []) -> reachable gen b -> q_name q <> [] ->
  step gen (ORequest q) b = Ok b1 o1 -> ~ resolves b (q_tab q) (q_name q) ->
  steps gen b1 l b2 -> Forall (fun o => ~ mayClose (q_tab q) (q_name q) (fst (q_src q)) o) l ->
  In (q_tab q) (tablesOf k) -> step gen (ORegister k (q_name q) id ty u fg true) b2 = Ok b3 out -> resolves b3 (q_tab q) (q_name q) -> ~ resolves b2 (q_tab q) (q_name q) ->
  (exists pre p post, out = pre ++ p ++ post /\ introduces (q_tab q) id (q_src q) p) /\ waiting b3 (q_tab q) (q_name q) = [].
Proof.
  intros GN R NE E NR H F T E3 R3 R2. destruct (C29_open_until_registered _ _ _ _ _ _ _ GN R E NR H F) as (I & _).
  assert (RB : reachable gen b2) by (apply (steps_reachable _ _ _ _ H); econstructor; eassumption).
  destruct (C29_registration_answers_the_open_requests _ _ _ _ _ _ _ _ _ _ _ RB NE E3) as [(-> & _)|(A & _)]; [contradiction|].
  destruct (A _ T) as (_ & W & pre & o & post & -> & IN). split; [|exact W]. destruct (introductions_in _ _ _ _ _ IN I) as (pre' & p & post' & -> & IP).
  exists (pre ++ pre'), p, (post' ++ post). rewrite <- !app_assoc. split; [reflexivity|exact IP].
Qed.
(** A federate which disconnects before the federation starts leaves no request behind; the others' stay. *)
Theorem C29_forgotten_when_the_requester_leaves gen fed re b b' out : step gen (ODisconnect fed re) b = Ok b' out -> operating b = false ->
  out = [] /\ forall t n, waiting b' t n = filter (fun e => negb (fst (fst e) =? fed)%Z) (waiting b t n).
Proof.
  intros E O. injection E as <- <-. split; [reflexivity|]. intros t n. rewrite forget_waiting. destruct (dropFed_frame (fed, re) b) as [A B]. rewrite B, O. unfold waiting. rewrite A. reflexivity.
Qed.
