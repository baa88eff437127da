(** * C49: a published value reaches every subscribed input exactly once and in order *)
From Coq Require Import String ZArith Bool List Lia ZifyBool.
From Verif Require Import HTime Action Codec CodecProofs PropsCodec Bundle PropsBundle Interfaces PropsInput Ids Route RouteInv PropsRoute Deliver.
Import ListNotations.
Open Scope Z_scope.

(** ** routing to a registered federate does not change *)
Lemma above_dec T : tree T -> forall x y, above T x y \/ ~ above T x y.
Proof.
  intros HT x y. remember (t_depth T y) as m eqn:M. revert y M. induction m as [|m IHm]; intros y M.
  - right. intros (c & P & B). pose proof (parent_depth T HT _ _ P). pose proof (proj1 (below_depth T HT _ _ B)). lia.
  - destruct (Nat.eq_dec y (t_root T)) as [->|N]; [right; apply (above_root T HT)|]. destruct (has_parent T HT y N) as [p P]. pose proof (parent_depth T HT _ _ P).
    destruct (Nat.eq_dec p x) as [->|Q]; [left; exists y; split; [exact P|constructor]|]. destruct (IHm p ltac:(lia)) as [A|A].
    + left. destruct A as (c & C1 & C2). exists c. split; [exact C1|apply (below_up T _ y p P C2)].
    + right. intros A'. destruct (above_parent T _ _ _ P A') as [->|A'']; [congruence|exact (A A'')].
Qed.
Lemma hop_facts T es K n g : fairHistory T es -> let s := run T es (net0 T) in registered s K n g ->
  hopAt T s K g = Here
  /\ (forall x, above T x K -> exists c, t_parent T c = Some x /\ below T c K /\ hopAt T s x g = Next c)
  /\ (forall x p, x <> K -> ~ above T x K -> t_parent T x = Some p -> hopAt T s x g = Next p).
Proof.
  intros H. cbv zeta. intros RG. pose proof (history_inv T es H) as I. pose proof H as (HT & FA & SM).
  set (s := run T es (net0 T)) in *.
  destruct (registered_core T es H K n g RG) as (C & R & KA). fold s in R, KA. assert (O : owner T s g K) by (right; exists n; exact R). destruct (owner_valid T s g K I SM O) as (_ & G0 & _).
  assert (NI : forall y, y <> K -> n_id (nodes s y) <> g) by (intros y _; apply (fed_not_node T es H n g K y R)).
  assert (AT : hopAt T s K g = Here).
  { unfold hopAt. rewrite C. assert (g <> n_higher (nodes s K)).
    { destruct (higher_is T HT s K I) as [Q|(p & _ & _ & Q)]; [lia|]. intros E. apply (fed_not_node T es H n g K p R). fold s. congruence. }
    destruct (Z.eqb_spec g parentId) as [E|_]; [unfold parentId in E; lia|]. destruct (Z.eqb_spec g (n_higher (nodes s K))); [contradiction|]. cbn [orb].
    assert (L : localFed (nodes s K) g = true) by (unfold localFed; apply existsb_exists; exists (n, g); split; [apply RG|apply Z.eqb_refl]). rewrite L, orb_true_r. reflexivity. }
  assert (OWN : K <> t_root T -> owner T s g K /\ knownAbove T s K g) by auto.
  assert (ONLY : K = t_root T -> forall x, lookup (n_table (nodes s x)) g = None) by (intros E; exfalso; apply (core_not_root T es H K C E)).
  assert (LOCAL : forall y, y <> K -> localFed (nodes s y) g = false).
  { intros y N. unfold localFed. destruct (existsb _ _) eqn:E; [|reflexivity]. exfalso. apply existsb_exists in E. destruct E as ((n' & g') & A & E). cbn [snd] in E. apply Z.eqb_eq in E. subst g'.
    assert (RG' : registered s y n' g) by (split; [exact A|apply RG]). destruct (registered_core T es H y n' g RG') as (_ & R' & _).
    apply N. apply (owner_unique T s g y K I SM); [right; exists n'; exact R'|exact O]. }
  split; [exact AT|]. split.
  - intros x. apply (hop_down T HT s I SM g K G0 NI AT OWN ONLY LOCAL).
  - intros x p. apply (hop_up T s I SM g K G0 NI AT OWN ONLY LOCAL).
Qed.
Lemma hop_same T es es' K n g : fairHistory T es -> fairHistory T es' -> registered (run T es (net0 T)) K n g -> registered (run T es' (net0 T)) K n g ->
  forall x, hopAt T (run T es (net0 T)) x g = hopAt T (run T es' (net0 T)) x g.
Proof.
  intros H H' R R' x. destruct (hop_facts T es K n g H R) as (A1 & A2 & A3), (hop_facts T es' K n g H' R') as (B1 & B2 & B3). pose proof (proj1 H) as HT.
  destruct (Nat.eq_dec x K) as [->|N]; [congruence|]. destruct (above_dec T HT x K) as [A|A].
  - destruct (A2 x A) as (c & P & B & ->), (B2 x A) as (c' & P' & B' & ->). f_equal. apply (child_unique T HT x c c' K P P' B B').
  - assert (NR : x <> t_root T). { intros ->. apply A. apply below_above; [apply below_root, HT|exact N]. }
    destruct (has_parent T HT x NR) as [p P]. rewrite (A3 x p N A P), (B3 x p N A P). reflexivity.
Qed.
(** the connections which commands from [x] to [K] use *)
Inductive way (hop : nat -> hop) (K : nat) : nat -> list (nat * nat) -> Prop :=
| way_end : hop K = Here -> way hop K K []
| way_next y z l : hop y = Next z -> way hop K z l -> way hop K y ((y, z) :: l).
Lemma follow_way T s K g : forall f x d, follow T s f x g = Some (K, d) -> exists l, way (fun y => hopAt T s y g) K x l /\ length l = d.
Proof.
  induction f as [|f IH]; intros x d H; [discriminate|]. cbn [follow] in H. destruct (hopAt T s x g) as [|y|] eqn:Q; [| |discriminate].
  - injection H as <- <-. exists []. split; [constructor; exact Q|reflexivity].
  - destruct (follow T s f y g) as [[z m]|] eqn:F; [|discriminate]. injection H as -> <-. destruct (IH y m F) as (l & W & L). exists ((x, y) :: l). split; [econstructor; eassumption|cbn; congruence].
Qed.
Lemma way_det h K x l l' : way h K x l -> way h K x l' -> l = l'.
Proof.
  intros W. revert l'. induction W as [H|y z l H W IH]; intros l' W'; inversion W'; subst; try congruence. rewrite H in H0. injection H0 as <-. f_equal. auto.
Qed.
Lemma way_inv h K y b : way h K y b -> (y = K /\ b = [] /\ h K = Here) \/ exists z l, b = (y, z) :: l /\ h y = Next z /\ way h K z l.
Proof. intros W. inversion W; subst; [left; auto|right; eauto]. Qed.
Lemma way_split h K x l a b c l2 : way h K x l -> l = a ++ (b, c) :: l2 -> h b = Next c /\ way h K c l2.
Proof.
  intros W. revert a. induction W as [H|y z l H W IH]; intros a E; [destruct a; discriminate|]. destruct a as [|q a]; [injection E as <- <- <-; auto|]. injection E as _ E. apply (IH a E).
Qed.
Lemma way_nodup h K x l : way h K x l -> NoDup l /\ ~ In x (map snd l).
Proof.
  intros W. assert (L : forall a b c l2, l = a ++ (b, c) :: l2 -> c <> x).
  { intros a b c l2 E ->. destruct (way_split h K x l a b x l2 W E) as [_ W2]. pose proof (way_det h K x _ _ W W2) as Q. rewrite Q in E. apply (f_equal (@length _)) in E. rewrite app_length in E. cbn in E. lia. }
  split.
  - clear L. induction W as [H|y z l H W IH]; [constructor|]. constructor; [|exact IH]. intros I. apply in_split in I as (a & b & E). destruct (way_split h K z l a y z b W E) as [_ W2].
    pose proof (way_det h K z _ _ W W2) as Q. rewrite Q in E. apply (f_equal (@length _)) in E. rewrite app_length in E. cbn in E. lia.
  - intros I. apply in_map_iff in I as ((b & c) & <- & I). apply in_split in I as (a & l2 & E). apply (L a b c l2 E). reflexivity.
Qed.
Lemma way_ext h h' K x l : (forall y, h y = h' y) -> way h K x l -> way h' K x l.
Proof. intros E. induction 1 as [H|y z l H W IH]; [constructor; rewrite <- E; exact H|econstructor; [rewrite <- E; exact H|exact IH]]. Qed.

Section Flow.
Variable json : amsg -> list Z -> amsg * bool.
Variable jsonText : amsg -> list Z.
Variable host : bool.
Variable T : topology.
Notation dstep := (dstep json jsonText host T).
Notation drun := (drun json jsonText host T).
Notation unpack := (unpack json host).
Notation process := (commandProcessor json host).

(** ** Specification: the publication [p] and the input [i], each a pair of a federate's id and a handle *)
Definition isValue (p i : Z * Z) (v : flit) : bool :=
  negb (v_copy v) && (m_action (v_cmd v) =? CMD_PUB)
  && gh_eqb (m_source_id (v_cmd v), m_source_handle (v_cmd v)) p && gh_eqb (m_dest_id (v_cmd v), m_dest_handle (v_cmd v)) i.
(** what one event sends from [p] to [i]: an accepted publication when [i] is subscribed, or the last value when [i] subscribes late *)
Definition says (p i : Z * Z) (subscribed : bool) (s : dsys) (e : devent) : list amsg :=
  match e with
  | D_publish K q data now send iter force =>
      if gh_eqb q p && localFed (nodes (d_net s) K) (fst p) && d_used s p && snd (checkSetValue (d_pub s p) data now force)
         && subscribed
      then [setDestination i (valueCmd p iter data send)] else []
  | D_fedSub K q j name iter late =>
      if gh_eqb q p && gh_eqb j i && localFed (nodes (d_net s) K) (fst p) && late then lastValue p i iter (d_pub s p) else []
  | _ => []
  end.
(** whether [i] is subscribed to [p] after one more event: the federate of [p] has heard of it, and of no end since *)
Definition subscribedThen (p i : Z * Z) (s : dsys) (before : bool) (e : devent) : bool :=
  match e with
  | D_fedSub K q j _ _ _ => if gh_eqb q p && gh_eqb j i && localFed (nodes (d_net s) K) (fst p) then true else before
  | D_unsub q j => if gh_eqb q p && gh_eqb j i then false else before
  | D_gone q f => if gh_eqb q p && (f =? fst i) then false else before
  | _ => before
  end.
(** the whole history: the state, whether [i] is subscribed, and everything sent from [p] to [i] *)
Definition story (p i : Z * Z) (es : list devent) : dsys * bool * list amsg :=
  fold_left (fun '(s, b, l) e => (dstep s e, subscribedThen p i s b e, l ++ says p i b s e)) es (dsys0 T, false, []).
Definition subscribed (p i : Z * Z) (es : list devent) : bool := snd (fst (story p i es)).
Definition sent (p i : Z * Z) (es : list devent) : list amsg := snd (story p i es).
Definition received (p i : Z * Z) (es : list devent) : list amsg := map v_cmd (filter (isValue p i) (d_box (drun es) (fst i))).
(** no value of [p] for [i] waits anywhere *)
Definition arrived (p i : Z * Z) (es : list devent) : Prop :=
  forall x y v, In v (flat_map unpack (d_links (drun es) x y)) -> isValue p i v = false.
Definition routes (es : list devent) : list event := flat_map (fun e => match e with D_route e => [e] | _ => [] end) es.
(** values and numbers in the range of their types; the federate of the input is registered before the publication hears of it *)
Definition sane (e : devent) : Prop :=
  match e with
  | D_publish _ p data _ send iter _ => int32 (fst p) /\ int32 (snd p) /\ uint16 iter /\ int64 send /\ len data <= 2000000000
  | D_fedSub _ _ i _ _ _ => int32 (fst i) /\ int32 (snd i)
  | _ => True
  end.
Definition wellFormed (p i : Z * Z) (es : list devent) : Prop :=
  fairHistory T (routes es) /\ Forall sane es
  /\ forall es1 K name iter late es2, es = es1 ++ D_fedSub K p i name iter late :: es2 -> exists Ki n, registered (d_net (drun es1)) Ki n (fst i).

(** ** the flow of values from [p] to [i] *)
Lemma drun_snoc es e : drun (es ++ [e]) = dstep (drun es) e.
Proof. unfold Deliver.drun. rewrite fold_left_app. reflexivity. Qed.
Lemma story_snoc p i es e : story p i (es ++ [e]) = let '(s, b, l) := story p i es in (dstep s e, subscribedThen p i s b e, l ++ says p i b s e).
Proof. unfold story. rewrite fold_left_app. cbn [fold_left]. destruct (fold_left _ es _) as [[s b] l]. reflexivity. Qed.
Lemma story_fst p i es : fst (fst (story p i es)) = drun es.
Proof. induction es as [|e es IH] using rev_ind; [reflexivity|]. rewrite story_snoc, drun_snoc. destruct (story p i es) as [[s b] l]. cbn [fst] in *. rewrite IH. reflexivity. Qed.
Lemma sent_snoc p i es e : sent p i (es ++ [e]) = sent p i es ++ says p i (subscribed p i es) (drun es) e.
Proof. unfold sent, subscribed. rewrite story_snoc, <- (story_fst p i). destruct (story p i es) as [[s b] l]. reflexivity. Qed.
Lemma subscribed_snoc p i es e : subscribed p i (es ++ [e]) = subscribedThen p i (drun es) (subscribed p i es) e.
Proof. unfold subscribed. rewrite story_snoc, <- (story_fst p i). destruct (story p i es) as [[s b] l]. reflexivity. Qed.
Lemma routes_app a b : routes (a ++ b) = routes a ++ routes b.
Proof. apply flat_map_app. Qed.
Lemma net_pass x v s : d_net (pass T x s v) = d_net s.
Proof. unfold pass. destruct (hopAt _ _ _ _); [destruct (d_over _ _)| |]; reflexivity. Qed.
Lemma net_passes x l : forall s, d_net (fold_left (pass T x) l s) = d_net s /\ d_pub (fold_left (pass T x) l s) = d_pub s /\ d_over (fold_left (pass T x) l s) = d_over s.
Proof.
  induction l as [|v l IH]; intros s; [auto|]. cbn [fold_left]. destruct (IH (pass T x s v)) as (-> & -> & ->). unfold pass. destruct (hopAt _ _ _ _); [destruct (d_over _ _) eqn:Q| |]; auto.
Qed.
Lemma net_run es : d_net (drun es) = run T (routes es) (net0 T).
Proof.
  induction es as [|e es IH] using rev_ind; [reflexivity|]. rewrite drun_snoc, routes_app. unfold run. rewrite fold_left_app. fold (run T (routes es) (net0 T)). rewrite <- IH.
  destruct e as [e|K p data now send iter force|K p i late|K p i name iter late|p i|p f|p o v|g|x y]; cbn [Deliver.dstep routes flat_map app fold_left d_net set_d_net set_d_pub set_d_over]; try reflexivity.
  - unfold publish. destruct (_ && _); [|reflexivity]. destruct (checkSetValue _ _ _ _) as [info []]; reflexivity.
  - unfold coreSubscribes. destruct (localFed _ _); [|reflexivity]. destruct late; [|reflexivity]. exact (proj1 (net_passes K _ _)).
  - unfold fedSubscribes. destruct (localFed _ _); [|reflexivity]. destruct late; reflexivity.
  - unfold serve. destruct (d_links _ _ _); [reflexivity|]. exact (proj1 (net_passes y _ _)).
Qed.
Lemma fair_prefix a b : fairHistory T (a ++ b) -> fairHistory T a.
Proof.
  intros (HT & F & S). apply Forall_app in F as [F _]. split; [exact HT|]. split; [exact F|]. unfold run in S. rewrite fold_left_app in S. apply (small_run T b), S.
Qed.

(** entries which are no bundles *)
Definition single (v : flit) : Prop := unpack v = [v].
Lemma process_single d halt : forall c m, In m (fst (process d halt c)) -> forall d', process (S d') false m = ([m], CMD_IGNORE).
Proof.
  induction d as [|d IH]; intros c m I d'; [destruct I|]. cbn [commandProcessor] in I. destruct (m_action c =? CMD_IGNORE) eqn:A1; [destruct I|]. destruct (isControl (m_action c)) eqn:A2; [destruct I|].
  destruct (m_action c =? CMD_MULTI_MESSAGE) eqn:A3.
  - revert I. generalize (Z.to_nat (m_counter c)) as k. generalize 0%nat as j. intros j k. revert j. induction k as [|k IHk]; intros j I; [destruct I|].
    destruct (process d halt (decoded json host (getString (Z.of_nat j) c))) as [done r] eqn:Q.
    match type of I with context [?lp k (S j)] => set (loop := lp) in * end. specialize (IHk (S j)). destruct (loop k (S j)) as [more r']. destruct (negb (r =? CMD_IGNORE) && negb (r =? CMD_TICK)); cbn [fst] in *.
    + apply (IH (decoded json host (getString (Z.of_nat j) c))). rewrite Q. exact I.
    + apply in_app_or in I as [I|I]; [apply (IH (decoded json host (getString (Z.of_nat j) c))); rewrite Q; exact I|exact (IHk I)].
  - destruct halt; [destruct I|]. destruct I as [<-|[]]. cbn [commandProcessor]. rewrite A1, A2, A3. reflexivity.
Qed.
Lemma unpack_single v : Forall single (unpack v).
Proof.
  apply Forall_forall. intros w I. unfold Deliver.unpack in I. apply in_map_iff in I as (m & <- & I). unfold single, Deliver.unpack. cbn [v_cmd v_copy]. rewrite (process_single _ _ _ _ I 1). reflexivity.
Qed.
Lemma plain_single b c : (m_action c =? CMD_IGNORE) = false -> isControl (m_action c) = false -> (m_action c =? CMD_MULTI_MESSAGE) = false -> single (mkV b c).
Proof. intros A B C. unfold single, Deliver.unpack. cbn [v_cmd v_copy commandProcessor]. rewrite A, B, C. reflexivity. Qed.
Lemma value_action p iter data t j : m_action (setDestination j (valueCmd p iter data t)) = CMD_PUB.
Proof. reflexivity. Qed.
Lemma value_single b p iter data t j : single (mkV b (setDestination j (valueCmd p iter data t))).
Proof. apply plain_single; rewrite value_action; reflexivity. Qed.
Lemma singles l : Forall single l -> flat_map unpack l = l.
Proof. induction 1 as [|v l S _ IH]; [reflexivity|]. cbn [flat_map]. rewrite S, IH. reflexivity. Qed.

Variables p i : Z * Z.
Definition fl (s : dsys) (x y : nat) : list flit := filter (isValue p i) (flat_map unpack (d_links s x y)).
Definition ar (s : dsys) : list flit := filter (isValue p i) (d_box s (fst i)).
Lemma isValue_dest v : isValue p i v = true -> m_dest_id (v_cmd v) = fst i.
Proof. unfold isValue, gh_eqb. cbn [fst snd]. lia. Qed.
Lemma push_flow x y l s : Forall single l -> forall a b, fl (push x y l s) a b = fl s a b ++ (if Nat.eqb a x && Nat.eqb b y then filter (isValue p i) l else []).
Proof.
  intros S a b. unfold fl, push. cbn [d_links set_d_links]. destruct (_ && _); [|rewrite app_nil_r; reflexivity]. rewrite flat_map_app, filter_app, (singles l S). reflexivity.
Qed.
Lemma pass_flow x s v : single v -> let h := hopAt T (d_net s) x (fst i) in let s' := pass T x s v in
  (forall a b, fl s' a b = fl s a b ++ match h with Next y => if Nat.eqb a x && Nat.eqb b y then filter (isValue p i) [v] else [] | _ => [] end)
  /\ ar s' = ar s ++ match h with Here => if d_over s (fst i) then [] else filter (isValue p i) [v] | _ => [] end.
Proof.
  intros S. cbv zeta. destruct (isValue p i v) eqn:V.
  - unfold pass. rewrite (isValue_dest v V). cbn [filter]. rewrite V. destruct (hopAt T (d_net s) x (fst i)) as [|y|].
    + destruct (d_over s (fst i)); split; intros; rewrite ?app_nil_r; try reflexivity. unfold ar, upd. cbn [d_box set_d_box]. rewrite Z.eqb_refl, filter_app. cbn [filter]. rewrite V. reflexivity.
    + split; [|rewrite app_nil_r; reflexivity]. intros a b. rewrite push_flow by (constructor; [exact S|constructor]). cbn [filter]. rewrite V. reflexivity.
    + split; intros; rewrite ?app_nil_r; reflexivity.
  - assert (E1 : forall a b, fl (pass T x s v) a b = fl s a b).
    { intros a b. unfold pass. destruct (hopAt _ _ _ _) as [|y|]; [destruct (d_over _ _); reflexivity| |reflexivity]. rewrite push_flow by (constructor; [exact S|constructor]). cbn [filter]. rewrite V. destruct (_ && _); apply app_nil_r. }
    assert (E2 : ar (pass T x s v) = ar s).
    { unfold pass. destruct (hopAt _ _ _ _) as [|y|]; try reflexivity. destruct (d_over _ _); [reflexivity|]. unfold ar, upd. cbn [d_box set_d_box]. destruct (Z.eqb_spec (fst i) (m_dest_id (v_cmd v))) as [E|_]; [|reflexivity].
      rewrite filter_app. cbn [filter]. rewrite V, app_nil_r, <- E. reflexivity. }
    cbn [filter]. rewrite V. split; [|rewrite E2]; intros; rewrite ?E1; destruct (hopAt _ _ _ _) as [|y|]; try (destruct (d_over _ _)); try (destruct (_ && _)); rewrite app_nil_r; reflexivity.
Qed.
Lemma passes_flow x l : Forall single l -> forall s, let h := hopAt T (d_net s) x (fst i) in let s' := fold_left (pass T x) l s in
  (forall a b, fl s' a b = fl s a b ++ match h with Next y => if Nat.eqb a x && Nat.eqb b y then filter (isValue p i) l else [] | _ => [] end)
  /\ ar s' = ar s ++ match h with Here => if d_over s (fst i) then [] else filter (isValue p i) l | _ => [] end.
Proof.
  induction 1 as [|v l S _ IH]; intros s; cbv zeta.
  - cbn [fold_left filter]. split; intros; destruct (hopAt _ _ _ _); try (destruct (_ && _)); try (destruct (d_over _ _)); rewrite app_nil_r; reflexivity.
  - cbn [fold_left]. destruct (pass_flow x s v S) as [P1 P2]. destruct (IH (pass T x s v)) as [I1 I2]. rewrite net_pass in I1, I2.
    assert (O : d_over (pass T x s v) = d_over s) by (exact (proj2 (proj2 (net_passes x [v] s)))). rewrite O in I2.
    split.
    + intros a b. rewrite I1, P1, <- app_assoc. f_equal. destruct (hopAt _ _ _ _) as [|y|]; try reflexivity. destruct (_ && _); [|reflexivity]. change (v :: l) with ([v] ++ l). rewrite filter_app. reflexivity.
    + rewrite I2, P2, <- app_assoc. f_equal. destruct (hopAt _ _ _ _) as [|y|]; try reflexivity. destruct (d_over _ _); [reflexivity|]. change (v :: l) with ([v] ++ l). rewrite filter_app. reflexivity.
Qed.
Lemma serve_flow x y s : d_links s x y = [] /\ serve json host T x y s = s \/ exists fv rest, fl s x y = fv ++ rest
  /\ let h := hopAt T (d_net s) y (fst i) in let s' := serve json host T x y s in
  (forall a b, fl s' a b = (if Nat.eqb a x && Nat.eqb b y then rest else fl s a b) ++ match h with Next z => if Nat.eqb a y && Nat.eqb b z then fv else [] | _ => [] end)
  /\ ar s' = ar s ++ match h with Here => if d_over s (fst i) then [] else fv | _ => [] end.
Proof.
  unfold serve. destruct (d_links s x y) as [|v r] eqn:L; [left; auto|]. right. exists (filter (isValue p i) (unpack v)), (filter (isValue p i) (flat_map unpack r)).
  split; [unfold fl; rewrite L; cbn [flat_map]; apply filter_app|]. cbv zeta. set (s1 := set_d_links _ s).
  destruct (passes_flow y (unpack v) (unpack_single v) s1) as [P1 P2]. change (d_net s1) with (d_net s) in *. change (d_over s1) with (d_over s) in P2. change (ar s1) with (ar s) in P2. split; [|exact P2].
  intros a b. rewrite P1. f_equal. unfold fl, s1. cbn [d_links set_d_links]. destruct (_ && _); reflexivity.
Qed.

(** ** what the other events do *)
Definition subbed (s : dsys) : bool := existsb (fun x => gh_eqb (fst x) i) (p_subs (d_pub s p)).
Definition pubsOk (s : dsys) : Prop := forall q, NoDup (map fst (p_subs (d_pub s q))) /\ forall t, In t (map fst (p_subs (d_pub s q))) -> int32 (fst t) /\ int32 (snd t).
Definition site (e : devent) : nat := match e with D_publish K _ _ _ _ _ _ | D_fedSub K _ _ _ _ _ => K | _ => 0%nat end.
Lemma value_fields b q j iter data t : isValue p i (mkV b (setDestination j (valueCmd q iter data t))) = negb b && (gh_eqb q p && gh_eqb j i).
Proof. unfold isValue. cbn [v_copy v_cmd]. change (m_action (setDestination j (valueCmd q iter data t))) with CMD_PUB. rewrite Z.eqb_refl. cbn. unfold gh_eqb. cbn. destruct b, (_ && _); reflexivity. Qed.
Lemma value_plain q t iter data send : int32 (fst q) /\ int32 (snd q) /\ uint16 iter /\ int64 send /\ len data <= 2000000000 -> int32 (fst t) /\ int32 (snd t) ->
  plain (setDestination t (valueCmd q iter data send)) /\ carried (setDestination t (valueCmd q iter data send)) = setDestination t (valueCmd q iter data send).
Proof.
  intros (A1 & A2 & A3 & A4 & A5) (B1 & B2). split; [|reflexivity]. split; [|repeat split; try reflexivity; discriminate].
  assert (SP : serializedByteCount (setDestination t (valueCmd q iter data send)) <= 100 + len data).
  { unfold serializedByteCount. change (m_action (setDestination t (valueCmd q iter data send)) =? CMD_TIME_REQUEST) with false. change (m_payload (setDestination t (valueCmd q iter data send))) with data. change (m_strings (setDestination t (valueCmd q iter data send))) with (@nil (list Z)). cbn [fold_right]. unfold baseSize. pose proof (len_nonneg data). destruct (_ <=? _); lia. }
  constructor; try exact A1; try exact A2; try exact A3; try exact A4; try exact B1; try exact B2; try (unfold int32, int64, uint16, uint32; cbn; lia).
  all: match goal with |- context [maxPayload] => change (m_strings (setDestination t (valueCmd q iter data send))) with (@nil (list Z)); change (len (@nil (list Z))) with 0; destruct (maxPayload <=? _); lia | |- Forall _ _ => constructor | |- context [serializedByteCount] => lia
    | |- context [m_payload _] => change (m_payload (setDestination t (valueCmd q iter data send))) with data; lia | _ => change (int32 CMD_PUB); vm_compute; split; [discriminate|reflexivity] end.
Qed.
Lemma filter_one q iter data send l : NoDup l -> filter (isValue p i) (map (fun t => mkV false (setDestination t (valueCmd q iter data send))) l)
  = if gh_eqb q p && existsb (fun t => gh_eqb t i) l then [mkV false (setDestination i (valueCmd p iter data send))] else [].
Proof.
  induction 1 as [|t l N _ IH]; [rewrite andb_false_r; reflexivity|]. cbn [map filter existsb]. rewrite value_fields. cbn [negb andb]. destruct (gh_eqb q p) eqn:Q; cbn [andb] in *; [|exact IH].
  apply gh_eqb_eq in Q. subst q. destruct (gh_eqb t i) eqn:E; cbn [orb]; [|exact IH]. apply gh_eqb_eq in E. subst t. rewrite IH. replace (existsb (fun t => gh_eqb t i) l) with false; [reflexivity|].
  symmetry. apply not_true_iff_false. intros X. apply existsb_exists in X as (t & I & E). apply gh_eqb_eq in E. subst t. contradiction.
Qed.
Lemma check_subs info data now force : p_subs (fst (checkSetValue info data now force)) = p_subs info.
Proof. unfold checkSetValue. destruct (_ && _); [reflexivity|]. destruct (_ || _); [destruct (negb _); reflexivity|]. destruct (p_buffer _); reflexivity. Qed.
Lemma existsb_fst (l : list ((Z * Z) * list Z)) j : existsb (fun t => gh_eqb t j) (map fst l) = existsb (fun x => gh_eqb (fst x) j) l.
Proof. induction l as [|x l IH]; [reflexivity|]. cbn. rewrite IH. reflexivity. Qed.
Lemma last_flow q j iter info : filter (isValue p i) (flat_map unpack (map (mkV false) (lastValue q j iter info))) = if gh_eqb q p && gh_eqb j i then map (mkV false) (lastValue p i iter info) else [].
Proof.
  unfold lastValue. destruct (negb (beq (p_data info) []) && (minVal <? p_last info)); [|destruct (_ && _); reflexivity]. cbn [map].
  rewrite (singles _ (Forall_cons _ (value_single _ _ _ _ _ _) (Forall_nil _))). cbn [filter]. rewrite value_fields. cbn [negb andb]. destruct (gh_eqb q p && gh_eqb j i) eqn:Q; [|reflexivity].
  apply andb_true_iff in Q as [Q1 Q2]. apply gh_eqb_eq in Q1, Q2. subst q j. reflexivity.
Qed.
Lemma step_flow s e : pubsOk s -> sane e -> (forall x y, e <> D_serve x y) -> let s' := dstep s e in
  (forall a b, fl s' a b = fl s a b ++ if Nat.eqb a (site e) && Nat.eqb b (site e) then map (mkV false) (says p i (subbed s) s e) else [])
  /\ ar s' = ar s /\ (d_over s (fst i) = true -> d_over s' (fst i) = true) /\ (says p i (subbed s) s e <> [] -> localFed (nodes (d_net s) (site e)) (fst p) = true /\ (subbed s = true \/ exists K name iter late, e = D_fedSub K p i name iter late)).
Proof.
  intros PO SA NS. cbv zeta.
  assert (TR : forall (P : Prop), P -> (forall a b, fl s a b = fl s a b ++ if Nat.eqb a 0 && Nat.eqb b 0 then map (mkV false) [] else []) /\ ar s = ar s /\ P /\ (@nil amsg <> [] -> localFed (nodes (d_net s) 0) (fst p) = true /\ (subbed s = true \/ exists K name iter late, e = D_fedSub K p i name iter late))).
  { intros P HP. split; [intros a b; destruct (_ && _); rewrite app_nil_r; reflexivity|]. split; [reflexivity|]. split; [exact HP|]. intros X; contradiction X; reflexivity. }
  destruct e as [e|K q data now send iter force|K q j late|K q j name iter late|q j|q f|q o v|g|x y]; cbn [Deliver.dstep site says].
  - apply TR. auto.
  - unfold publish. destruct (localFed (nodes (d_net s) K) (fst q)) eqn:L; cbn [andb].
    2:{ assert (Q : gh_eqb q p && localFed (nodes (d_net s) K) (fst p) = false). { destruct (gh_eqb q p) eqn:Q; [|reflexivity]. apply gh_eqb_eq in Q. subst q. exact L. }
        rewrite Q. cbn [andb]. split; [intros a b; destruct (Nat.eqb a K && Nat.eqb b K); cbn [map]; rewrite app_nil_r; reflexivity|]. split; [reflexivity|]. split; [auto|]. intros X; contradiction X; reflexivity. }
    destruct (d_used s q) eqn:U.
    2:{ assert (Q : gh_eqb q p && localFed (nodes (d_net s) K) (fst p) && d_used s p = false). { destruct (gh_eqb q p) eqn:Q; [|reflexivity]. apply gh_eqb_eq in Q. subst q. rewrite U. apply andb_false_r. }
        rewrite Q. cbn [andb]. split; [intros a b; destruct (Nat.eqb a K && Nat.eqb b K); cbn [map]; rewrite app_nil_r; reflexivity|]. split; [reflexivity|]. split; [auto|]. intros X; contradiction X; reflexivity. }
    pose proof (check_subs (d_pub s q) data now force) as CS. destruct (checkSetValue (d_pub s q) data now force) as [info ok] eqn:C. cbn [fst snd] in *.
    assert (SY : (if gh_eqb q p && localFed (nodes (d_net s) K) (fst p) && d_used s p && snd (checkSetValue (d_pub s p) data now force) && subbed s then [setDestination i (valueCmd p iter data send)] else [])
      = if ok && (gh_eqb q p && existsb (fun t => gh_eqb t i) (map fst (p_subs (d_pub s q)))) then [setDestination i (valueCmd p iter data send)] else []).
    { rewrite existsb_fst. destruct (gh_eqb q p) eqn:Q; [|rewrite andb_false_r; reflexivity]. apply gh_eqb_eq in Q. subst q. rewrite L, U, C. unfold subbed. reflexivity. }
    rewrite SY. split; [|split; [|split]].
    + destruct ok; cbn [andb].
      2:{ intros a b. destruct (Nat.eqb a K && Nat.eqb b K); cbn [map]; rewrite app_nil_r; reflexivity. }
      intros a b. unfold fl, push. cbn [d_links set_d_links set_d_pub]. destruct (Nat.eqb a K && Nat.eqb b K); [|rewrite app_nil_r; reflexivity].
      rewrite flat_map_app, filter_app. f_equal. rewrite CS. destruct (PO q) as [ND IN].
      assert (FM : forall ms, flat_map unpack (map (mkV false) ms) = map (mkV false) (allProcessed json host 2 ms)).
      { intros ms. unfold allProcessed. rewrite flat_map_concat_map, map_map, flat_map_concat_map, concat_map, map_map. reflexivity. }
      rewrite FM, (C39_publication_reaches_every_subscriber json jsonText host (valueCmd q iter data send) (map fst (p_subs (d_pub s q))) 0).
      * rewrite map_map, (filter_one q iter data send _ ND). destruct (gh_eqb q p && existsb (fun t => gh_eqb t i) (map fst (p_subs (d_pub s q)))); reflexivity.
      * intros t I. apply (value_plain q t iter data send SA (IN t I)).
      * intros t I. apply (value_plain q t iter data send SA (IN t I)).
    + destruct ok; reflexivity.
    + destruct ok; auto.
    + intros X. destruct ok; [|contradiction X; reflexivity]. cbn [andb] in X. destruct (gh_eqb q p) eqn:Q; [|contradiction X; reflexivity]. apply gh_eqb_eq in Q. subst q. cbn [andb] in X.
      split; [exact L|left]. unfold subbed. rewrite <- existsb_fst. destruct (existsb _ _); [reflexivity|contradiction X; reflexivity].
  - unfold coreSubscribes. destruct (localFed (nodes (d_net s) K) (fst q)); [|apply TR; auto]. destruct late; [|apply TR; auto].
    set (s1 := set_d_used _ s). change (d_pub s1 q) with (d_pub s q). set (l := map (mkV true) (lastValue q j 0 (d_pub s q))).
    assert (SL : Forall single l /\ filter (isValue p i) l = []).
    { unfold l, lastValue. destruct (_ && _); [|split; [constructor|reflexivity]]. cbn [map filter]. rewrite value_fields. split; [|reflexivity]. constructor; [apply value_single|constructor]. }
    destruct (passes_flow K l (proj1 SL) s1) as [P1 P2]. rewrite (proj2 SL) in P1, P2. change (ar s1) with (ar s) in P2. split; [|split; [|split]].
    + intros a b. rewrite P1. change (fl s1 a b) with (fl s a b). f_equal. destruct (hopAt T (d_net s1) K (fst i)) as [|z|]; [|destruct (Nat.eqb a K && Nat.eqb b z)|]; destruct (Nat.eqb a 0 && Nat.eqb b 0); reflexivity.
    + rewrite P2. destruct (hopAt T (d_net s1) K (fst i)) as [|z|]; [destruct (d_over s1 (fst i))| |]; apply app_nil_r.
    + rewrite (proj2 (proj2 (net_passes K l s1))). auto.
    + intros X. contradiction X. reflexivity.
  - unfold fedSubscribes. destruct (localFed (nodes (d_net s) K) (fst q)) eqn:L.
    2:{ assert (Q : gh_eqb q p && gh_eqb j i && localFed (nodes (d_net s) K) (fst p) = false). { destruct (gh_eqb q p) eqn:Q; [|reflexivity]. apply gh_eqb_eq in Q. subst q. rewrite L. apply andb_false_r. }
        rewrite Q. cbn [andb]. split; [intros a b; destruct (Nat.eqb a K && Nat.eqb b K); cbn [map]; rewrite app_nil_r; reflexivity|]. split; [reflexivity|]. split; [auto|]. intros X; contradiction X; reflexivity. }
    assert (SY : (if gh_eqb q p && gh_eqb j i && localFed (nodes (d_net s) K) (fst p) && late then lastValue p i iter (d_pub s p) else []) = if gh_eqb q p && gh_eqb j i && late then lastValue p i iter (d_pub s p) else []).
    { destruct (gh_eqb q p) eqn:Q; [|reflexivity]. apply gh_eqb_eq in Q. subst q. rewrite L, andb_true_r. reflexivity. }
    rewrite SY. split; [|split; [|split]].
    + destruct late; [|intros a b; rewrite andb_false_r; destruct (Nat.eqb a K && Nat.eqb b K); cbn [map]; rewrite app_nil_r; reflexivity]. rewrite andb_true_r.
      assert (LV : lastValue q j iter (fst (addSubscriber (d_pub s q) j name)) = lastValue q j iter (d_pub s q)) by (unfold addSubscriber; destruct (existsb _ _); reflexivity). rewrite LV.
      intros a b. unfold fl, push. cbn [d_links set_d_links set_d_pub]. destruct (Nat.eqb a K && Nat.eqb b K); [|rewrite app_nil_r; reflexivity].
      rewrite flat_map_app, filter_app. f_equal. rewrite last_flow. destruct (gh_eqb q p && gh_eqb j i) eqn:Q; [|reflexivity].
      apply andb_true_iff in Q as [Q1 Q2]. apply gh_eqb_eq in Q1. subst q. reflexivity.
    + destruct late; reflexivity.
    + destruct late; auto.
    + intros X. destruct (gh_eqb q p) eqn:Q1; [|contradiction X; reflexivity]. destruct (gh_eqb j i) eqn:Q2; [|contradiction X; reflexivity]. apply gh_eqb_eq in Q1, Q2. subst q j. split; [exact L|right; eauto].
  - apply TR. auto.
  - apply TR. auto.
  - apply TR. auto.
  - apply TR. intros H. cbn [d_over set_d_over]. unfold upd. destruct (Z.eqb _ _); auto.
  - contradiction (NS x y). reflexivity.
Qed.
(** ** the subscribers of the publications *)
Lemma subs_step s e q : p_subs (d_pub (dstep s e) q) = p_subs (d_pub s q)
  \/ (exists f, p_subs (d_pub (dstep s e) q) = filter f (p_subs (d_pub s q)))
  \/ exists K j name iter late, e = D_fedSub K q j name iter late /\ localFed (nodes (d_net s) K) (fst q) = true /\ p_subs (d_pub (dstep s e) q) = p_subs (d_pub s q) ++ [(j, name)] /\ existsb (fun x => gh_eqb (fst x) j) (p_subs (d_pub s q)) = false.
Proof.
  assert (UP : forall q0 info, p_subs (upd gh_eqb (d_pub s) q0 info q) = p_subs (d_pub s q) \/ q = q0 /\ p_subs (upd gh_eqb (d_pub s) q0 info q) = p_subs info).
  { intros q0 info. unfold upd. destruct (gh_eqb q q0) eqn:E; [|auto]. apply gh_eqb_eq in E. auto. }
  destruct e as [e|K q0 data now send iter force|K q0 j late|K q0 j name iter late|q0 j|q0 f|q0 o v|g|x y]; cbn [Deliver.dstep]; auto.
  - left. unfold publish. destruct (_ && _); [|reflexivity]. pose proof (check_subs (d_pub s q0) data now force) as CS. destruct (checkSetValue _ _ _ _) as [info ok]. cbn [fst] in CS.
    assert (E : p_subs (upd gh_eqb (d_pub s) q0 info q) = p_subs (d_pub s q)) by (destruct (UP q0 info) as [E|[-> E]]; [exact E|rewrite E; exact CS]). destruct ok; exact E.
  - left. unfold coreSubscribes. destruct (localFed _ _); [|reflexivity]. destruct late; [|reflexivity]. rewrite (proj1 (proj2 (net_passes K _ _))). reflexivity.
  - unfold fedSubscribes. destruct (localFed _ _) eqn:L; [|auto]. destruct (UP q0 (fst (addSubscriber (d_pub s q0) j name))) as [E|[-> E]].
    + left. destruct late; exact E.
    + assert (E' : p_subs (d_pub (if late then push K K (map (mkV false) (lastValue q0 j iter (fst (addSubscriber (d_pub s q0) j name)))) (set_d_pub (upd gh_eqb (d_pub s) q0 (fst (addSubscriber (d_pub s q0) j name))) s) else set_d_pub (upd gh_eqb (d_pub s) q0 (fst (addSubscriber (d_pub s q0) j name))) s) q0) = p_subs (fst (addSubscriber (d_pub s q0) j name))) by (destruct late; exact E).
      cbv zeta. rewrite E'. unfold addSubscriber. destruct (existsb _ _) eqn:X; cbn [fst].
      * left. reflexivity.
      * right. right. exists K, j, name, iter, late. repeat split; auto.
  - destruct (UP q0 (removeSubscriber (d_pub s q0) j)) as [E|[-> E]]; [left; exact E|]. right. left. eexists. exact E.
  - destruct (UP q0 (pubDisconnect (d_pub s q0) f)) as [E|[-> E]]; [left; exact E|]. right. left. eexists. exact E.
  - left. destruct (UP q0 (pubSetProperty o v (d_pub s q0))) as [E|[-> E]]; [exact E|]. cbn [d_pub set_d_pub]. rewrite E. unfold pubSetProperty.
    repeat (match goal with |- context [if ?c then _ else _] => destruct c end; try reflexivity).
  - left. unfold serve. destruct (d_links _ _ _); [reflexivity|]. rewrite (proj1 (proj2 (net_passes y _ _))). reflexivity.
Qed.
Lemma nodup_filter {A B} (g : A -> B) f l : NoDup (map g l) -> NoDup (map g (filter f l)).
Proof.
  induction l as [|x l IH]; [auto|]. cbn. intros N. inversion_clear N as [|? ? N1 N2]. destruct (f x); [|auto]. cbn. constructor; [|auto]. intros I. apply N1. apply in_map_iff in I as (y & E & I). apply filter_In in I as [I _]. rewrite <- E. apply in_map, I.
Qed.
Lemma pubs_step s e : pubsOk s -> sane e -> pubsOk (dstep s e).
Proof.
  intros PO SA q. destruct (PO q) as [N I]. destruct (subs_step s e q) as [->|[[f ->]|(K & j & name & iter & late & -> & _ & -> & X)]]; [auto| |].
  - split; [apply nodup_filter, N|]. intros t H. apply I. apply in_map_iff in H as (y & <- & H). apply filter_In in H as [H _]. apply in_map, H.
  - rewrite map_app. cbn [map fst]. split.
    + apply NoDup_snoc; [exact N|]. intros H. rewrite <- existsb_fst in X. apply not_true_iff_false in X. apply X. apply existsb_exists. exists j. split; [exact H|apply gh_eqb_eq; reflexivity].
    + intros t H. apply in_app_or in H as [H|[<-|[]]]; [auto|exact SA].
Qed.
Lemma subbed_then s e : subbed (dstep s e) = subscribedThen p i s (subbed s) e.
Proof.
  unfold subbed. assert (UP : forall q0 info, p_subs (upd gh_eqb (d_pub s) q0 info p) = if gh_eqb q0 p then p_subs info else p_subs (d_pub s p)).
  { intros q0 info. unfold upd. replace (gh_eqb p q0) with (gh_eqb q0 p); [destruct (gh_eqb q0 p); reflexivity|]. unfold gh_eqb. lia. }
  assert (EX : forall f (l : list (ghandle * list Z)), (forall x, In x l -> gh_eqb (fst x) i = true -> f x = true) -> existsb (fun x => gh_eqb (fst x) i) (filter f l) = existsb (fun x => gh_eqb (fst x) i) l).
  { intros f l H. induction l as [|x l IH]; [reflexivity|]. cbn [filter existsb]. rewrite <- IH by (intros; apply H; [right|]; assumption). destruct (f x) eqn:F; [reflexivity|]. destruct (gh_eqb (fst x) i) eqn:G; [|reflexivity]. rewrite H in F; [discriminate|left; reflexivity|exact G]. }
  assert (EN : forall f (l : list (ghandle * list Z)), (forall x, gh_eqb (fst x) i = true -> f x = false) -> existsb (fun x => gh_eqb (fst x) i) (filter f l) = false).
  { intros f l H. apply not_true_iff_false. intros X. apply existsb_exists in X as (x & I & G). apply filter_In in I as [_ I]. rewrite (H x G) in I. discriminate. }
  destruct e as [e|K q data now send iter force|K q j late|K q j name iter late|q j|q f|q o v|g|x y]; cbn [subscribedThen]; try reflexivity.
  - cbn [Deliver.dstep]. unfold publish. destruct (_ && _); [|reflexivity]. pose proof (check_subs (d_pub s q) data now force) as CS. destruct (checkSetValue _ _ _ _) as [info ok]. cbn [fst] in CS.
    assert (E : p_subs (upd gh_eqb (d_pub s) q info p) = p_subs (d_pub s p)). { rewrite UP. destruct (gh_eqb q p) eqn:G; [apply gh_eqb_eq in G; subst q; exact CS|reflexivity]. }
    destruct ok; cbn [d_pub push set_d_links set_d_pub]; rewrite E; reflexivity.
  - cbn [Deliver.dstep]. unfold coreSubscribes. destruct (localFed _ _); [|reflexivity]. destruct late; [|reflexivity]. rewrite (proj1 (proj2 (net_passes K _ _))). reflexivity.
  - cbn [Deliver.dstep]. unfold fedSubscribes.
    assert (E : p_subs (d_pub (if localFed (nodes (d_net s) K) (fst q) then if late then push K K (map (mkV false) (lastValue q j iter (fst (addSubscriber (d_pub s q) j name)))) (set_d_pub (upd gh_eqb (d_pub s) q (fst (addSubscriber (d_pub s q) j name))) s) else set_d_pub (upd gh_eqb (d_pub s) q (fst (addSubscriber (d_pub s q) j name))) s else s) p)
      = if gh_eqb q p && localFed (nodes (d_net s) K) (fst p) then p_subs (fst (addSubscriber (d_pub s p) j name)) else p_subs (d_pub s p)).
    { destruct (gh_eqb q p) eqn:G; cbn [andb].
      - apply gh_eqb_eq in G. subst q. assert (R : gh_eqb p p = true) by (apply gh_eqb_eq; reflexivity). destruct (localFed _ _); [|reflexivity]. destruct late; cbn [d_pub push set_d_links set_d_pub]; rewrite UP, R; reflexivity.
      - destruct (localFed _ _); [|reflexivity]. destruct late; cbn [d_pub push set_d_links set_d_pub]; rewrite UP, G; reflexivity. }
    cbv zeta. rewrite E. destruct (gh_eqb q p); cbn [andb]; [|reflexivity]. destruct (localFed (nodes (d_net s) K) (fst p)); rewrite ?andb_true_r, ?andb_false_r; [|reflexivity].
    unfold addSubscriber. destruct (gh_eqb j i) eqn:G.
    + apply gh_eqb_eq in G. subst j. destruct (existsb (fun s0 => gh_eqb (fst s0) i) (p_subs (d_pub s p))) eqn:X; cbn [fst]; [exact X|]. cbn [p_subs set_p_subs]. rewrite existsb_app. cbn [existsb fst]. assert (R : gh_eqb i i = true) by (apply gh_eqb_eq; reflexivity). rewrite R. apply orb_true_r.
    + destruct (existsb (fun s0 => gh_eqb (fst s0) j) (p_subs (d_pub s p))) eqn:X; cbn [fst]; [reflexivity|]. cbn [p_subs set_p_subs]. rewrite existsb_app. cbn [existsb fst]. rewrite G, !orb_false_r. reflexivity.
  - cbn [Deliver.dstep d_pub set_d_pub]. rewrite UP. destruct (gh_eqb q p) eqn:G; cbn [andb]; [|reflexivity]. apply gh_eqb_eq in G. subst q. unfold removeSubscriber. cbn [p_subs set_p_subs]. destruct (gh_eqb j i) eqn:G.
    + apply gh_eqb_eq in G. subst j. apply EN. intros x H. rewrite H. reflexivity.
    + apply EX. intros x _ H. apply gh_eqb_eq in H. rewrite H. replace (gh_eqb i j) with (gh_eqb j i) by (unfold gh_eqb; lia). rewrite G. reflexivity.
  - cbn [Deliver.dstep d_pub set_d_pub]. rewrite UP. destruct (gh_eqb q p) eqn:G; cbn [andb]; [|reflexivity]. apply gh_eqb_eq in G. subst q. unfold pubDisconnect. cbn [p_subs set_p_subs]. destruct (Z.eqb_spec f (fst i)) as [->|N].
    + apply EN. intros [[u v] w] H. unfold gh_eqb in H. cbn in *. lia.
    + apply EX. intros [[u v] w] _ H. unfold gh_eqb in H. cbn in *. lia.
  - cbn [Deliver.dstep d_pub set_d_pub]. rewrite UP. destruct (gh_eqb q p) eqn:G; [|reflexivity]. apply gh_eqb_eq in G. subst q. unfold pubSetProperty. repeat (match goal with |- context [if ?c then _ else _] => destruct c end; try reflexivity).
  - cbn [Deliver.dstep]. unfold serve. destruct (d_links _ _ _); [reflexivity|]. rewrite (proj1 (proj2 (net_passes y _ _))). reflexivity.
Qed.
Lemma subscribed_is es : subscribed p i es = subbed (drun es).
Proof. induction es as [|e es IH] using rev_ind; [reflexivity|]. rewrite subscribed_snoc, drun_snoc, subbed_then, IH. reflexivity. Qed.
Lemma subbed_step s e : subbed (dstep s e) = true -> subbed s = true \/ exists K name iter late, e = D_fedSub K p i name iter late.
Proof.
  unfold subbed. destruct (subs_step s e p) as [->|[[f ->]|(K & j & name & iter & late & -> & _ & -> & X)]]; [auto| |].
  - intros H. left. apply existsb_exists in H as (x & H & E). apply filter_In in H as [H _]. apply existsb_exists. eauto.
  - rewrite existsb_app. intros H. apply orb_true_iff in H as [H|H]; [auto|]. cbn in H. rewrite orb_false_r in H. apply gh_eqb_eq in H. subst j. right. eauto.
Qed.

(** ** everything sent is somewhere on the way, in order *)
Fixpoint content (s : dsys) (E : list (nat * nat)) : list flit := match E with [] => [] | e :: E => content s E ++ fl s (fst e) (snd e) end.
Lemma content_app s a b : content s (a ++ b) = content s b ++ content s a.
Proof. induction a as [|e a IH]; cbn [app content]; [rewrite app_nil_r; reflexivity|]. rewrite IH, app_assoc. reflexivity. Qed.
Lemma content_same s s' E : (forall x y, In (x, y) E -> fl s' x y = fl s x y) -> content s' E = content s E.
Proof. induction E as [|(x & y) E IH]; intros H; [reflexivity|]. cbn [content fst snd]. rewrite IH by (intros; apply H; right; assumption). rewrite (H x y) by (left; reflexivity). reflexivity. Qed.
Lemma content_empty s E : (forall x y, In (x, y) E -> fl s x y = []) -> content s E = [].
Proof. induction E as [|(x & y) E IH]; intros H; [reflexivity|]. cbn [content fst snd]. rewrite IH by (intros; apply H; right; assumption). rewrite (H x y) by (left; reflexivity). reflexivity. Qed.
Lemma edge_eqb a b x y : (Nat.eqb a x && Nat.eqb b y) = true <-> (a, b) = (x, y).
Proof. rewrite andb_true_iff, !Nat.eqb_eq. split; [intros [-> ->]; reflexivity|intros E; injection E as -> ->; auto]. Qed.
Lemma edge_dec (a b : nat * nat) : {a = b} + {a <> b}.
Proof. decide equality; apply Nat.eq_dec. Qed.
Lemma nodup_right {A} (a b : list A) : NoDup (a ++ b) -> NoDup b.
Proof. induction a as [|x a IH]; [auto|]. intros N. inversion N. auto. Qed.
Lemma edge_neq a b x y : (a, b) <> (x, y) -> (Nat.eqb a x && Nat.eqb b y) = false.
Proof. intros N. apply not_true_iff_false. rewrite edge_eqb. exact N. Qed.

Section History.
Variables (es : list devent) (K0 : nat) (n0 : string) (K : nat) (n : string).
Hypothesis WF : wellFormed p i es.
Hypothesis RP : registered (d_net (drun es)) K0 n0 (fst p).
Hypothesis RI : registered (d_net (drun es)) K n (fst i).
Let fair : fairHistory T (routes es) := proj1 WF.
Let hopF (x : nat) : hop := hopAt T (d_net (drun es)) x (fst i).
Lemma final_way : exists l, way hopF K K0 l.
Proof.
  pose proof RI as R. rewrite net_run in R. destruct (C44_commands_reach_the_federate T (routes es) fair K n (fst i) R K0) as (d & F & _).
  destruct (follow_way T _ K (fst i) _ _ _ F) as (l & W & _). exists l. revert W. apply way_ext. intros y. unfold hopF. rewrite net_run. reflexivity.
Qed.
Definition J (E : list (nat * nat)) (es1 : list devent) : Prop := let s := drun es1 in
  pubsOk s
  /\ (forall x y, ~ In (x, y) E -> fl s x y = [])
  /\ (d_over s (fst i) = false -> map v_cmd (ar s ++ content s E) = sent p i es1)
  /\ (exists q, sent p i es1 = map v_cmd (ar s) ++ q)
  /\ (subbed s = true \/ (exists x y, fl s x y <> []) -> registered (d_net s) K n (fst i)).
Lemma fair_before es1 es2 : es = es1 ++ es2 -> fairHistory T (routes es1).
Proof. intros E. pose proof fair as F. rewrite E, routes_app in F. apply (fair_prefix _ _ F). Qed.
Lemma later es1 es2 x m g : es = es1 ++ es2 -> registered (d_net (drun es1)) x m g -> registered (d_net (drun es)) x m g.
Proof. intros E R. rewrite net_run in R |- *. pose proof fair as F. rewrite E, routes_app in F |- *. apply C44_ids_are_permanent; [exact F|exact R]. Qed.
Lemma kept es1 e es2 x m g : es = (es1 ++ [e]) ++ es2 -> registered (d_net (drun es1)) x m g -> registered (d_net (drun (es1 ++ [e]))) x m g.
Proof. intros E R. pose proof (fair_before _ _ E) as F. rewrite net_run in R |- *. rewrite routes_app in F |- *. apply C44_ids_are_permanent; [exact F|exact R]. Qed.
Lemma sub_registered es1 e es2 : es = (es1 ++ [e]) ++ es2 -> (exists K1 name iter late, e = D_fedSub K1 p i name iter late) -> registered (d_net (drun es1)) K n (fst i).
Proof.
  intros E (K1 & name & iter & late & ->). pose proof WF as (_ & _ & W). rewrite <- app_assoc in E. destruct (W es1 K1 name iter late es2 E) as (Ki & m & R).
  pose proof (later _ _ _ _ _ E R) as R'. pose proof RI as RI'. rewrite net_run in R', RI'. destruct (C44_federates_are_distinct T (routes es) fair _ _ _ _ _ _ R' RI' (or_intror eq_refl)) as (<- & <- & _). exact R.
Qed.
Lemma at_home es1 es2 K1 : es = es1 ++ es2 -> localFed (nodes (d_net (drun es1)) K1) (fst p) = true -> K1 = K0.
Proof.
  intros E L. unfold localFed in L. apply existsb_exists in L as ((m & g) & I & L). cbn [snd] in L. apply Z.eqb_eq in L. subst g.
  assert (R : registered (d_net (drun es1)) K1 m (fst p)) by (split; [exact I|apply RP]). pose proof (later _ _ _ _ _ E R) as R'. pose proof RP as RP'. rewrite net_run in R', RP'.
  destruct (C44_federates_are_distinct T (routes es) fair _ _ _ _ _ _ R' RP' (or_intror eq_refl)) as (Q & _). exact Q.
Qed.
Lemma hop_now es1 es2 x : es = es1 ++ es2 -> registered (d_net (drun es1)) K n (fst i) -> hopAt T (d_net (drun es1)) x (fst i) = hopF x.
Proof.
  intros E R. unfold hopF. pose proof RI as RI'. rewrite net_run in R, RI'. rewrite !net_run. apply (hop_same T (routes es1) (routes es) K n (fst i)); [apply (fair_before _ _ E)|exact fair|exact R|exact RI'].
Qed.
Lemma J_run l : way hopF K K0 l -> forall es1 es2, es = es1 ++ es2 -> J ((K0, K0) :: l) es1.
Proof.
  intros W. set (E := (K0, K0) :: l). assert (ND : NoDup E).
  { destruct (way_nodup _ _ _ _ W) as [N1 N2]. constructor; [|exact N1]. intros H. apply N2. apply (in_map snd) in H. exact H. }
  induction es1 as [|e es1 IH] using rev_ind; intros es2 EQ.
  - split; [|split; [|split; [|split]]].
    + intros q. split; [constructor|intros t []].
    + reflexivity.
    + intros _. cbn [map]. change (sent p i []) with (@nil amsg). change (ar (drun [])) with (@nil flit). rewrite content_empty; [reflexivity|]. reflexivity.
    + exists []. reflexivity.
    + intros [H|(x & y & H)]; [discriminate H|contradiction H; reflexivity].
  - pose proof EQ as EQ'. rewrite <- app_assoc in EQ'. destruct (IH _ EQ') as (PO & J1 & J2 & J2' & J3). clear IH. unfold J. rewrite drun_snoc, sent_snoc, subscribed_is. set (s := drun es1) in *.
    assert (SA : sane e). { pose proof WF as (_ & SA & _). rewrite EQ in SA. apply Forall_app in SA as [SA _]. apply Forall_app in SA as [_ SA]. inversion SA. assumption. }
    assert (KEEP : registered (d_net s) K n (fst i) -> registered (d_net (dstep s e)) K n (fst i)). { intros R. unfold s. rewrite <- drun_snoc. apply (kept es1 e es2 _ _ _ EQ R). }
    assert (SUB : (exists K1 name iter late, e = D_fedSub K1 p i name iter late) -> registered (d_net s) K n (fst i)) by (apply (sub_registered es1 e es2 EQ)).
    split; [apply pubs_step; assumption|].
    assert (CASE : (forall x y, e <> D_serve x y) \/ exists x y, e = D_serve x y) by (destruct e; try (left; intros; discriminate); right; eauto). destruct CASE as [NS|(x & y & ->)].
    + destruct (step_flow s e PO SA NS) as (F1 & F2 & F3 & F4).
      assert (ST : says p i (subbed s) s e <> [] -> site e = K0) by (intros X; apply (at_home es1 _ _ EQ'), (F4 X)).
      assert (F1' : forall a b, fl (dstep s e) a b = fl s a b ++ if Nat.eqb a K0 && Nat.eqb b K0 then map (mkV false) (says p i (subbed s) s e) else []).
      { intros a b. rewrite F1. f_equal. destruct (says p i (subbed s) s e) as [|c r]; [destruct (_ && _), (_ && _); reflexivity|]. rewrite ST by discriminate. reflexivity. }
      split; [|split; [|split]].
      * intros a b NI. rewrite F1', (J1 a b NI), edge_neq; [reflexivity|]. intros Q. apply NI. rewrite Q. left. reflexivity.
      * intros OV. assert (OV' : d_over s (fst i) = false) by (destruct (d_over s (fst i)); [rewrite (F3 eq_refl) in OV; discriminate|reflexivity]). rewrite <- (J2 OV'), F2.
        assert (C : content (dstep s e) E = content s E ++ map (mkV false) (says p i (subbed s) s e)).
        { unfold E. cbn [content fst snd]. rewrite F1', !Nat.eqb_refl. cbn [andb]. rewrite (content_same s (dstep s e) l), app_assoc; [reflexivity|]. intros a b I. rewrite F1', edge_neq, app_nil_r; [reflexivity|].
          intros Q. rewrite Q in I. inversion ND. contradiction. }
        rewrite C, !map_app, map_map, map_id, <- app_assoc. reflexivity.
      * destruct J2' as [q ->]. rewrite F2. exists (q ++ says p i (subbed s) s e). rewrite app_assoc. reflexivity.
      * intros H. apply KEEP. destruct H as [H|(a & b & H)].
        -- destruct (subbed_step s e H) as [H'|H']; [apply J3; left; exact H'|apply (SUB H')].
        -- rewrite F1' in H. destruct (fl s a b) as [|c r] eqn:Q; [|apply J3; right; exists a, b; rewrite Q; discriminate].
           destruct (says p i (subbed s) s e) as [|c r] eqn:Y; [exfalso; apply H; cbn; destruct (_ && _); reflexivity|]. destruct (F4 ltac:(discriminate)) as [_ [H'|H']]; [apply J3; left; exact H'|apply (SUB H')].
    + cbn [says Deliver.dstep] in *. rewrite app_nil_r.
      assert (SB : subbed (serve json host T x y s) = subbed s). { unfold subbed. destruct (subs_step s (D_serve x y) p) as [Q|[[f Q]|(K1 & j & name & iter & late & Q & _)]]; [cbn [Deliver.dstep] in Q; rewrite Q; reflexivity| |discriminate].
        unfold serve. destruct (d_links _ _ _); [reflexivity|]. rewrite (proj1 (proj2 (net_passes y _ _))). reflexivity. }
      assert (OV : d_over (serve json host T x y s) = d_over s). { unfold serve. destruct (d_links _ _ _); [reflexivity|]. rewrite (proj2 (proj2 (net_passes y _ _))). reflexivity. }
      destruct (serve_flow x y s) as [[_ ->]|(fv & rest & SP & SF)]; [auto|]. cbv zeta in SF. rewrite OV. set (s' := serve json host T x y s) in *.
      assert (Q0 : fv = [] \/ registered (d_net s) K n (fst i) /\ In (x, y) E).
      { destruct fv as [|c fv]; [auto|]. right. split; [apply J3; right; exists x, y; rewrite SP; discriminate|]. destruct (in_dec edge_dec (x, y) E) as [I|I]; [exact I|]. rewrite (J1 x y I) in SP. discriminate. }
      destruct Q0 as [->|(R & I)].
      * cbn [app] in SP. assert (F0 : forall a b, fl s' a b = fl s a b).
        { intros a b. destruct SF as [SF _]. rewrite SF. destruct (hopAt _ _ _ _) as [|z|]; [| destruct (Nat.eqb a y && Nat.eqb b z)|]; rewrite app_nil_r; (destruct (Nat.eqb a x && Nat.eqb b y) eqn:B; [apply edge_eqb in B; injection B as -> ->; symmetry; exact SP|reflexivity]). }
        assert (A0 : ar s' = ar s). { destruct SF as [_ SF]. rewrite SF. destruct (hopAt _ _ _ _); [destruct (d_over s (fst i))| |]; apply app_nil_r. }
        rewrite A0. rewrite (content_same s s' E) by (intros; apply F0). split; [intros; rewrite F0; auto|]. split; [exact J2|]. split; [exact J2'|]. intros H. apply KEEP, J3. destruct H as [H|(a & b & H)]; [left; rewrite <- SB; exact H|right; exists a, b; rewrite <- F0; exact H].
      * assert (HN : hopAt T (d_net s) y (fst i) = hopF y) by (apply (hop_now es1 _ y EQ' R)). rewrite HN in SF. destruct SF as [SF1 SF2].
        pose proof I as I0. apply in_split in I as (a & b & EE).
        assert (WB : way hopF K y b). { unfold E in EE. destruct a as [|q a]; [injection EE as <- <- <-; exact W|]. injection EE as _ EE. apply (way_split _ _ _ _ _ _ _ _ W EE). }
        assert (NA : ~ In (x, y) a /\ ~ In (x, y) b). { rewrite EE in ND. apply NoDup_remove in ND as [_ ND]. split; intros X; apply ND, in_or_app; auto. } destruct NA as [NA NB].
        destruct (way_inv _ _ _ _ WB) as [(-> & -> & HH)|(z & l0 & -> & HH & WZ)].
        -- rewrite HH in SF1, SF2. assert (F0 : forall u v, fl s' u v = if Nat.eqb u x && Nat.eqb v K then rest else fl s u v) by (intros; rewrite SF1, app_nil_r; reflexivity).
           split; [|split; [|split]].
           ++ intros u v NI. rewrite F0, edge_neq; [apply J1, NI|]. intros Q. apply NI. rewrite Q. exact I0.
           ++ intros O. rewrite <- (J2 O). rewrite SF2, O, EE, !content_app. cbn [content fst snd app]. rewrite F0, !Nat.eqb_refl, SP. cbn [andb].
              rewrite (content_same s s' a); [rewrite <- !app_assoc; reflexivity|]. intros u v I. rewrite F0, edge_neq; [reflexivity|]. intros Q. rewrite Q in I. contradiction.
           ++ destruct (d_over s (fst i)) eqn:O; [rewrite SF2, app_nil_r; exact J2'|]. exists (map v_cmd (content s' E)). rewrite <- map_app. rewrite <- (J2 eq_refl). rewrite SF2, EE, !content_app. cbn [content fst snd app]. rewrite F0, !Nat.eqb_refl, SP. cbn [andb].
              rewrite (content_same s s' a); [rewrite <- !app_assoc; reflexivity|]. intros u v I. rewrite F0, edge_neq; [reflexivity|]. intros Q. rewrite Q in I. contradiction.
           ++ intros _. apply KEEP, R.
        -- rewrite HH in SF1, SF2. rewrite app_nil_r in SF2.
           assert (NE : (x, y) <> (y, z)). { intros Q. apply NB. rewrite Q. left. reflexivity. }
           assert (NN : NoDup ((y, z) :: l0)). { rewrite EE in ND. apply (nodup_right a) in ND. inversion ND. assumption. }
           assert (NZ : ~ In (y, z) a). { intros X. rewrite EE in ND. change ((x, y) :: (y, z) :: l0) with ([(x, y)] ++ (y, z) :: l0) in ND. rewrite app_assoc in ND. apply NoDup_remove in ND as [_ ND]. apply ND, in_or_app. left. apply in_or_app. auto. }
           assert (CE : map v_cmd (content s' E) = map v_cmd (content s E)).
           { rewrite EE, !content_app. cbn [content fst snd]. rewrite !SF1, !Nat.eqb_refl. cbn [andb]. rewrite (edge_neq x y y z NE), (edge_neq y z x y) by congruence. rewrite app_nil_r, SP.
             rewrite (content_same s s' a), (content_same s s' l0).
             - rewrite <- !app_assoc. reflexivity.
             - intros u v I. rewrite SF1, !edge_neq, app_nil_r; [reflexivity| |]; intros Q; rewrite Q in I; [inversion NN; contradiction|apply NB; right; exact I].
             - intros u v I. rewrite SF1, !edge_neq, app_nil_r; [reflexivity| |]; intros Q; rewrite Q in I; contradiction. }
           split; [|split; [|split]].
           ++ intros u v NI. rewrite SF1, !edge_neq, app_nil_r; [apply J1, NI| |]; intros Q; apply NI; rewrite Q; [|exact I0]. rewrite EE. apply in_or_app. right. right. left. reflexivity.
           ++ intros O. rewrite <- (J2 O), SF2, !map_app, CE. reflexivity.
           ++ rewrite SF2. exact J2'.
           ++ intros _. apply KEEP, R.
Qed.
End History.

(** ** the properties *)
(** what an input has received from a publication is, in order and without repetition, what was sent to it first *)
Theorem C49_values_arrive_in_order_once es K0 n0 K n : wellFormed p i es -> registered (d_net (drun es)) K0 n0 (fst p) -> registered (d_net (drun es)) K n (fst i) ->
  exists later, sent p i es = received p i es ++ later.
Proof.
  intros WF RP RI. destruct (final_way es K0 K n WF RI) as [l W]. destruct (J_run es K0 n0 K n WF RP RI l W es [] ltac:(rewrite app_nil_r; reflexivity)) as (_ & _ & _ & H & _). exact H.
Qed.
(** when no value is under way, and the federate of the input has not ended, the input has received everything *)
Theorem C49_nothing_is_lost es K0 n0 K n : wellFormed p i es -> registered (d_net (drun es)) K0 n0 (fst p) -> registered (d_net (drun es)) K n (fst i) ->
  d_over (drun es) (fst i) = false -> arrived p i es -> received p i es = sent p i es.
Proof.
  intros WF RP RI O A. destruct (final_way es K0 K n WF RI) as [l W]. destruct (J_run es K0 n0 K n WF RP RI l W es [] ltac:(rewrite app_nil_r; reflexivity)) as (_ & _ & H & _). rewrite <- (H O).
  rewrite content_empty; [rewrite app_nil_r; reflexivity|]. intros x y _. unfold fl. specialize (A x y). revert A. generalize (flat_map unpack (d_links (drun es) x y)). intros m A.
  induction m as [|v m IH]; [reflexivity|]. cbn [filter]. rewrite (A v) by (left; reflexivity). apply IH. intros w I. apply A. right. exact I.
Qed.
(** a publication is told apart as used exactly when its core has heard of a subscriber *)
Lemma used_passes x l : forall s, d_used (fold_left (pass T x) l s) = d_used s.
Proof. induction l as [|v l IH]; intros s; [reflexivity|]. cbn [fold_left]. rewrite IH. unfold pass. destruct (hopAt _ _ _ _); [destruct (d_over s _)| |]; reflexivity. Qed.
Theorem C49_used_when_a_subscriber_is_known es : d_used (drun es) p = true <->
  exists es1 K j late es2, es = es1 ++ D_coreSub K p j late :: es2 /\ localFed (nodes (d_net (drun es1)) K) (fst p) = true.
Proof.
  induction es as [|e es IH] using rev_ind.
  - split; [discriminate|]. intros (es1 & K & j & late & es2 & E & _). destruct es1; discriminate.
  - assert (ST : d_used (drun (es ++ [e])) p = true <-> d_used (drun es) p = true \/ exists K j late, e = D_coreSub K p j late /\ localFed (nodes (d_net (drun es)) K) (fst p) = true).
    { rewrite drun_snoc. set (s := drun es). assert (NO : forall u, u = d_used s p -> (forall K q j late, e <> D_coreSub K q j late) -> (u = true <-> d_used s p = true \/ exists K j late, e = D_coreSub K p j late /\ localFed (nodes (d_net s) K) (fst p) = true)).
      { intros u -> N. split; [auto|]. intros [H|(K & j & late & H & _)]; [exact H|]. contradiction (N _ _ _ _ H). }
      destruct e as [e|K q data now send iter force|K q j late|K q j name iter late|q j|q f|q o v|g|x y]; try (apply NO; [|discriminate]); cbn [Deliver.dstep]; try reflexivity.
      - unfold publish. destruct (_ && _); [|reflexivity]. destruct (checkSetValue _ _ _ _) as [info []]; reflexivity.
      - unfold coreSubscribes. destruct (localFed (nodes (d_net s) K) (fst q)) eqn:L.
        + assert (E : d_used (if late then fold_left (pass T K) (map (mkV true) (lastValue q j 0 (d_pub (set_d_used (upd gh_eqb (d_used s) q true) s) q))) (set_d_used (upd gh_eqb (d_used s) q true) s) else set_d_used (upd gh_eqb (d_used s) q true) s) p = upd gh_eqb (d_used s) q true p) by (destruct late; [rewrite used_passes|]; reflexivity).
          cbv zeta. rewrite E. unfold upd. destruct (gh_eqb p q) eqn:G.
          * apply gh_eqb_eq in G. subst q. split; [|reflexivity]. intros _. right. eauto 6.
          * split; [auto|]. intros [H|(K1 & j1 & l1 & H & _)]; [exact H|]. injection H as -> -> -> ->. assert (gh_eqb p p = true) by (apply gh_eqb_eq; reflexivity). congruence.
        + split; [auto|]. intros [H|(K1 & j1 & l1 & H & L')]; [exact H|]. injection H as -> -> -> ->. congruence.
      - unfold fedSubscribes. destruct (localFed _ _); [|reflexivity]. destruct late; reflexivity.
      - unfold serve. destruct (d_links _ _ _); [reflexivity|]. rewrite used_passes. reflexivity. }
    rewrite ST, IH. split.
    + intros [(es1 & K & j & late & es2 & -> & L)|(K & j & late & -> & L)]; [exists es1, K, j, late, (es2 ++ [e]); split; [rewrite <- app_assoc; reflexivity|exact L]|exists es, K, j, late, []; auto].
    + intros (es1 & K & j & late & es2 & E & L). destruct es2 as [|x es2] using rev_ind.
      * apply app_inj_tail in E as [-> ->]. right. eauto 6.
      * clear IHes2. rewrite app_comm_cons, app_assoc in E. apply app_inj_tail in E as [-> ->]. left. eauto 8.
Qed.
(** what the receiver reads in such a command *)
Theorem C49_what_a_value_says data send iter : let c := setDestination i (valueCmd p iter data send) in
  m_action c = CMD_PUB /\ m_payload c = data /\ m_actionTime c = send /\ m_counter c = iter /\ (m_source_id c, m_source_handle c) = p /\ (m_dest_id c, m_dest_handle c) = i.
Proof. destruct p, i. repeat split. Qed.
(** ** the connections can always be served to the end *)
Definition isServe (e : devent) : Prop := exists x y, e = D_serve x y.
Lemma hop_other es x y g : fairHistory T (routes es) -> hopAt T (d_net (drun es)) x g = Next y -> x <> y.
Proof.
  intros F H. pose proof (history_inv T _ F) as I. rewrite <- net_run in I. pose proof (proj1 F) as HT.
  assert (Q : t_parent T x = Some y \/ t_parent T y = Some x).
  { unfold hopAt in H. destruct (t_core T x).
    - left. destruct (t_parent T x) as [q|]; destruct ((g =? parentId) || _); try destruct (_ || _); congruence.
    - destruct (g =? _); [discriminate|]. destruct (_ =? parentRoute); [left; destruct (t_parent T x) as [q|]; congruence|]. destruct (lookup _ _) as [z|] eqn:L; [|discriminate]. injection H as ->. right. apply lookup_in in L. apply (proj1 (k_routes _ _ _ (i_nodes _ _ I x)) _ _ L). }
  intros ->. destruct Q as [Q|Q]; pose proof (parent_depth T HT _ _ Q); lia.
Qed.
Lemma pass_links s0 y l : (forall g z, hopAt T (d_net s0) y g = Next z -> y <> z) -> forall s u v, d_net s = d_net s0 -> u <> y \/ u = v -> d_links (fold_left (pass T y) l s) u v = d_links s u v.
Proof.
  intros HO. induction l as [|w l IH]; intros s u v E C; [reflexivity|]. cbn [fold_left]. rewrite IH; [|rewrite net_pass; exact E|exact C]. unfold pass. destruct (hopAt T (d_net s) y (m_dest_id (v_cmd w))) as [|z|] eqn:H; [destruct (d_over s _); reflexivity| |reflexivity].
  unfold push. cbn [d_links set_d_links]. rewrite edge_neq; [reflexivity|]. intros Q. injection Q as -> ->. rewrite E in H. apply HO in H. destruct C; congruence.
Qed.
Lemma routes_serves es srv : Forall isServe srv -> routes (es ++ srv) = routes es.
Proof. intros F. rewrite routes_app. replace (routes srv) with (@nil event); [apply app_nil_r|]. induction F as [|e l (x & y & ->) _ IH]; [reflexivity|exact IH]. Qed.
Lemma drain es x y : fairHistory T (routes es) -> exists srv, Forall isServe srv /\ d_links (drun (es ++ srv)) x y = [] /\ forall u v, u <> y -> (u, v) <> (x, y) -> d_links (drun (es ++ srv)) u v = d_links (drun es) u v.
Proof.
  remember (length (d_links (drun es) x y)) as k eqn:LK. revert es LK. induction k as [|k IH]; intros es LK F.
  - exists []. rewrite app_nil_r. split; [constructor|]. destruct (d_links (drun es) x y); [auto|discriminate].
  - destruct (d_links (drun es) x y) as [|v r] eqn:D; [discriminate|]. assert (HO : forall g z, hopAt T (d_net (drun es)) y g = Next z -> y <> z) by (intros g z; apply hop_other, F).
    assert (S : forall a b, a <> y \/ a = b -> d_links (drun (es ++ [D_serve x y])) a b = if Nat.eqb a x && Nat.eqb b y then r else d_links (drun es) a b).
    { intros a b C. rewrite drun_snoc. cbn [Deliver.dstep]. unfold serve. rewrite D. rewrite (pass_links (drun es) y _ HO); [reflexivity|reflexivity|exact C]. }
    assert (SR : Forall isServe [D_serve x y]) by (constructor; [eexists _, _; reflexivity|constructor]).
    destruct (IH (es ++ [D_serve x y])) as (srv & V & E & O).
    + rewrite S, !Nat.eqb_refl by (destruct (Nat.eq_dec x y); auto). cbn [andb]. cbn [length] in LK. lia.
    + rewrite (routes_serves es _ SR). exact F.
    + exists (D_serve x y :: srv). rewrite <- app_assoc in E. cbn [app] in E. split; [constructor; [eexists _, _; reflexivity|exact V]|]. split; [exact E|].
      intros u w N1 N2. specialize (O u w N1 N2). rewrite <- app_assoc in O. cbn [app] in O. rewrite O, S by auto. rewrite (edge_neq _ _ _ _ N2). reflexivity.
Qed.
Lemma drain_way es E : fairHistory T (routes es) -> (forall a x y b, E = a ++ (x, y) :: b -> forall u v, In (u, v) a -> u <> y /\ (u, v) <> (x, y)) ->
  exists srv, Forall isServe srv /\ forall x y, In (x, y) E -> d_links (drun (es ++ srv)) x y = [].
Proof.
  intros F. induction E as [|(x & y) E IH] using rev_ind; intros H.
  - exists []. split; [constructor|intros x y []].
  - destruct IH as (srv & V & D); [intros a x0 y0 b Q; apply (H a x0 y0 (b ++ [(x, y)])); rewrite Q, <- app_assoc; reflexivity|].
    destruct (drain (es ++ srv) x y) as (srv' & V' & D' & O); [rewrite routes_serves; assumption|]. exists (srv ++ srv'). rewrite app_assoc. split; [apply Forall_app; auto|].
    intros u v I. apply in_app_or in I as [I|[Q|[]]]; [|injection Q as <- <-; exact D']. destruct (H E x y [] eq_refl u v I) as [N1 N2]. rewrite O; auto.
Qed.
Lemma sent_serves es srv : Forall isServe srv -> sent p i (es ++ srv) = sent p i es.
Proof. intros F. induction srv as [|e l IH] using rev_ind; [rewrite app_nil_r; reflexivity|]. apply Forall_app in F as [F1 F2]. inversion F2 as [|? ? (x & y & ->) _]. subst. rewrite app_assoc, sent_snoc, IH by exact F1. apply app_nil_r. Qed.
Lemma net_serves es srv : Forall isServe srv -> d_net (drun (es ++ srv)) = d_net (drun es) /\ d_over (drun (es ++ srv)) = d_over (drun es).
Proof.
  intros F. induction srv as [|e l IH] using rev_ind; [rewrite app_nil_r; auto|]. apply Forall_app in F as [F1 F2]. inversion F2 as [|? ? (x & y & ->) _]. subst. destruct (IH F1) as [<- <-]. rewrite app_assoc, drun_snoc. cbn [Deliver.dstep]. unfold serve.
  destruct (d_links _ _ _); [auto|]. destruct (net_passes y (unpack f) (set_d_links (fun a b => if Nat.eqb a x && Nat.eqb b y then l0 else d_links (drun (es ++ l)) a b) (drun (es ++ l)))) as (-> & _ & ->). auto.
Qed.
Lemma wf_serves es srv : Forall isServe srv -> wellFormed p i es -> wellFormed p i (es ++ srv).
Proof.
  intros F (W1 & W2 & W3). split; [rewrite routes_serves; assumption|]. split.
  - apply Forall_app. split; [exact W2|]. revert F. apply Forall_impl. intros e (x & y & ->). exact I.
  - intros es1 K name iter late es2 E. assert (Q : exists r, es = es1 ++ D_fedSub K p i name iter late :: r).
    { clear W1 W2 W3. revert es1 E. induction es as [|e es IH]; intros es1 E.
      - exfalso. rewrite Forall_forall in F. cbn [app] in E. destruct (F (D_fedSub K p i name iter late)) as (x & y & Q); [rewrite E; apply in_or_app; right; left; reflexivity|discriminate].
      - destruct es1 as [|e1 es1]; cbn [app] in E; injection E as -> E; [exists es; reflexivity|]. destruct (IH es1 E) as [r ->]. exists r. reflexivity. }
    destruct Q as [r Q]. apply (W3 es1 K name iter late r Q).
Qed.
(** whatever is under way, serving the connections delivers it: nothing gets stuck *)
Theorem C49_delivery_completes es K0 n0 K n : wellFormed p i es -> registered (d_net (drun es)) K0 n0 (fst p) -> registered (d_net (drun es)) K n (fst i) ->
  d_over (drun es) (fst i) = false -> exists services, Forall isServe services /\ received p i (es ++ services) = sent p i es.
Proof.
  intros WF RP RI O. destruct (final_way es K0 K n WF RI) as [l W].
  destruct (drain_way es ((K0, K0) :: l) (proj1 WF)) as (srv & V & D).
  { intros a x y b E u v H. destruct a as [|q a]; [destruct H|]. cbn [app] in E. injection E as <- E. pose proof (way_split _ _ _ _ _ _ _ _ W E) as [_ W2]. destruct (way_nodup _ _ _ _ W) as [N1 N2].
    assert (NY : y <> K0). { intros ->. apply N2. rewrite E, map_app. apply in_or_app. right. left. reflexivity. }
    destruct H as [Q|H]; [injection Q as <- <-; split; [auto|intros Q; injection Q as -> ->; apply NY; reflexivity]|]. apply in_split in H as (a1 & a2 & ->). split.
    - intros ->. rewrite <- app_assoc in E. cbn [app] in E. assert (W1 : exists l1, way (fun x => hopAt T (d_net (drun es)) x (fst i)) K y l1 /\ l1 = (y, v) :: a2 ++ (x, y) :: b).
      { pose proof (way_split _ _ _ _ _ _ _ _ W E) as [H1 H2]. exists ((y, v) :: a2 ++ (x, y) :: b). split; [econstructor; eassumption|reflexivity]. }
      destruct W1 as (l1 & W1 & ->). pose proof (way_det _ _ _ _ _ W1 W2) as Q. apply (f_equal (@length _)) in Q. cbn [length] in Q. rewrite app_length in Q. cbn [length] in Q. lia.
    - intros Q. rewrite Q in E. rewrite E in N1. apply NoDup_remove in N1 as [_ N1]. apply N1, in_or_app. left. apply in_or_app. right. left. reflexivity. }
  exists srv. split; [exact V|]. destruct (net_serves es srv V) as [NE OE]. rewrite <- (sent_serves es srv V).
  assert (WF' : wellFormed p i (es ++ srv)) by (apply wf_serves; assumption).
  assert (W' : way (fun x => hopAt T (d_net (drun (es ++ srv))) x (fst i)) K K0 l) by (rewrite NE; exact W).
  destruct (J_run (es ++ srv) K0 n0 K n WF' ltac:(rewrite NE; exact RP) ltac:(rewrite NE; exact RI) l W' (es ++ srv) [] ltac:(rewrite app_nil_r; reflexivity)) as (_ & _ & H & _).
  rewrite <- H by (rewrite OE; exact O). rewrite content_empty; [rewrite app_nil_r; reflexivity|]. intros x y I. unfold fl. rewrite (D x y I). reflexivity.
Qed.
End Flow.

(** ** Examples: a federate "f" at the core 2 behind a broker publishes, "g" at the core 3 and "f" itself subscribe *)
From Verif Require Import RouteLive.
Section Examples.
Let pf : Z := fedShift + 1.
Let pg : Z := fedShift + 3 * priorityBlock.
Definition exPub : Z * Z := (pf, 0).
Definition exIn : Z * Z := (pg, 1).
Definition exOwn : Z * Z := (pf, 5).
Definition exLate : Z * Z := (pg, 2).
Definition exJson (m : amsg) (l : list Z) : amsg * bool := (m, true).
Definition exText (m : amsg) : list Z := [].
Definition exHistory : list devent :=
  map D_route es0 ++
  [D_option exPub OPT_BUFFER_DATA 1; D_coreSub 2 exPub exIn false; D_fedSub 2 exPub exIn [] 0 false; D_fedSub 2 exPub exOwn [] 0 false;
   D_publish 2 exPub [7; 8] 0 0 0 false; D_serve 2 2; D_publish 2 exPub [9] 0 0 0 false; D_serve 2 1; D_serve 1 0; D_serve 0 3; D_serve 2 2].
Definition exServices : list devent := [D_serve 2 1; D_serve 1 0; D_serve 0 3].
Definition exLateHistory : list devent := exHistory ++ [D_coreSub 2 exPub exLate true; D_fedSub 2 exPub exLate [] 0 true; D_serve 2 2] ++ exServices ++ exServices ++ exServices.
Notation xrun := (drun exJson exText false T0).
Lemma es0_fair : fairHistory T0 es0.
Proof. split; [apply T0_tree|]. split; [unfold es0; repeat constructor|]. vm_compute. split; discriminate. Qed.
Lemma ex_routes es1 : routes es1 = [] -> routes (map D_route es0 ++ es1) = es0.
Proof. intros E. rewrite routes_app, E, app_nil_r. reflexivity. Qed.
Lemma ex_net es1 : routes es1 = [] -> d_net (xrun (map D_route es0 ++ es1)) = run T0 es0 (net0 T0).
Proof. intros E. rewrite net_run, ex_routes by exact E. reflexivity. Qed.
Lemma ex_pub : registered (run T0 es0 (net0 T0)) 2 "f" pf.
Proof. split; [vm_compute; left; reflexivity|vm_compute; discriminate]. Qed.
Lemma ex_in : registered (run T0 es0 (net0 T0)) 3 "g" pg.
Proof. split; [vm_compute; left; reflexivity|vm_compute; discriminate]. Qed.
Lemma ex_before {A} (x : A) a b es1 es2 : ~ In x a -> a ++ b = es1 ++ x :: es2 -> exists es1', es1 = a ++ es1'.
Proof.
  intros N. revert es1. induction a as [|y a IH]; intros es1 E; [exists es1; reflexivity|]. destruct es1 as [|z es1]; cbn [app] in E; injection E as -> E; [contradiction N; left; reflexivity|].
  destruct (IH ltac:(intros I; apply N; right; exact I) es1 E) as [r ->]. exists r. reflexivity.
Qed.
Lemma ex_wellFormed q es1 : routes es1 = [] -> Forall sane es1 -> (exists K n, registered (run T0 es0 (net0 T0)) K n (fst q)) -> wellFormed exJson exText false T0 exPub q (map D_route es0 ++ es1).
Proof.
  intros R S (K & n & G). split; [rewrite ex_routes by exact R; apply es0_fair|]. split.
  - apply Forall_app. split; [|exact S]. apply Forall_forall. intros e I. apply in_map_iff in I as (x & <- & _). exact Logic.I.
  - intros e1 K1 name iter late e2 E. assert (N : ~ In (D_fedSub K1 exPub q name iter late) (map D_route es0)) by (intros I; apply in_map_iff in I as (x & Q & _); discriminate).
    destruct (ex_before _ _ _ _ _ N E) as [r ->]. exists K, n. rewrite <- app_assoc in E. apply app_inv_head in E. rewrite ex_net; [exact G|]. rewrite E, routes_app in R. apply app_eq_nil in R. apply R.
Qed.
Example C49_example : exists K0 n0 K n, wellFormed exJson exText false T0 exPub exIn exHistory
  /\ registered (d_net (xrun exHistory)) K0 n0 (fst exPub) /\ registered (d_net (xrun exHistory)) K n (fst exIn) /\ d_over (xrun exHistory) (fst exIn) = false
  /\ map m_payload (sent exJson exText false T0 exPub exIn exHistory) = [[7; 8]; [9]] /\ map m_payload (received exJson exText false T0 exPub exIn exHistory) = [[7; 8]]
  /\ map m_payload (received exJson exText false T0 exPub exOwn exHistory) = [[7; 8]; [9]]
  /\ received exJson exText false T0 exPub exIn (exHistory ++ exServices) = sent exJson exText false T0 exPub exIn exHistory
  /\ arrived exJson exText false T0 exPub exIn (exHistory ++ exServices).
Proof.
  exists 2%nat, "f"%string, 3%nat, "g"%string. split; [|split; [|split]].
  - apply ex_wellFormed; [reflexivity| |exists 3%nat, "g"%string; exact ex_in]. repeat constructor; vm_compute; congruence.
  - unfold exHistory. rewrite ex_net by reflexivity. exact ex_pub.
  - unfold exHistory. rewrite ex_net by reflexivity. exact ex_in.
  - split; [reflexivity|]. split; [vm_compute; reflexivity|]. split; [vm_compute; reflexivity|]. split; [vm_compute; reflexivity|]. split; [vm_compute; reflexivity|].
    intros x y v I. exfalso. assert (E : forall x y, d_links (xrun (exHistory ++ exServices)) x y = []).
    { clear. intros x y. destruct x as [|[|[|[|x]]]], y as [|[|[|[|y]]]]; vm_compute; reflexivity. }
    rewrite E in I. destruct I.
Qed.
(** ** What fails *)
(** "a late subscriber is told the last value once": the core and the federate of the publication both send it *)
Theorem C49_late_subscriber_is_told_twice_refuted : exists es i, wellFormed exJson exText false T0 exPub i es
  /\ map m_payload (sent exJson exText false T0 exPub i es) = [[9]]
  /\ map (fun v => (v_copy v, m_payload (v_cmd v))) (filter (fun v => m_dest_handle (v_cmd v) =? snd i) (d_box (xrun es) (fst i))) = [(true, [9]); (false, [9])].
Proof.
  exists exLateHistory, exLate. split; [|split; vm_compute; reflexivity].
  unfold exLateHistory, exHistory. rewrite <- app_assoc. apply ex_wellFormed; [reflexivity| |exists 3%nat, "g"%string; exact ex_in]. repeat constructor; vm_compute; congruence.
Qed.
End Examples.
