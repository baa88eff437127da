(** * C46: when nothing is left to do, everything has stopped and every finalize has returned *)
From Coq Require Import ZArith Bool List Lia.
From Verif Require Import Route Shutdown PropsShutdown ShutdownLive.
Import ListNotations.
Open Scope nat_scope.

(** ** Specification *)
(** the events which need nobody from outside; the others: calls of finalize and disconnect, the timer, the simulation's progress *)
Definition internal (e : event) : Prop :=
  match e with EFed _ | ECore _ | EUp _ | EDown _ | EStop _ => True | _ => False end.
(** of a core, a broker or a federate which takes part *)
Definition ofFederation (T : topology) (N : fedn) (e : event) : Prop :=
  match e with
  | EFinal f | EFed f => exists c, member T N c /\ In f (feds N c)
  | ECore n | EUp n | EDown n | EStop n | ETick n | EOper n | EUser n => member T N n
  end.
(** every command has been processed *)
Definition settled (T : topology) (N : fedn) (s : gs) : Prop := forall e, internal e -> ofFederation T N e -> step T N s e = s.
(** nobody calls disconnect() *)
Definition noUser (h : list event) : Prop := forall n, ~ In (EUser n) h.

Section End_.
Context (T : topology) (N : fedn) (HT : tree T) (WF : wf T N).
Local Notation root := (t_root T).
Local Notation step := (step T N).

(** the acknowledgement has been sent *)
Definition done (y : fd) : Prop := fst_ y = Fin \/ In FAck (fq y) \/ In FStop (fq y).
Definition fok (B : Prop) (f : nat) (x : nd) (y : fd) : Prop :=
  (called y = true -> fst_ y = Act -> In (KReq f) (cq x) \/ fq y <> []) /\
  (fst_ y = Terming -> In (KDisc f) (cq x) \/ In f (gone x)) /\
  (done y -> In f (gone x) \/ rs x <> Run) /\
  (B -> stopping x = true \/ rs x = Stop -> called y = true -> done y) /\
  (glob N = false -> In f (gone x) -> rs x = Run -> done y).
Definition finv (B : Prop) (s : gs) : Prop :=
  (forall f, In f (feds N (coreOf N f)) -> fok B f (nodes s (coreOf N f)) (fds s f)) /\
  (forall c f, In (KReq f) (cq (nodes s c)) \/ In (KDisc f) (cq (nodes s c)) -> coreOf N f = c) /\
  (B -> forall n, ~ In DGlobal (dn (nodes s n))).
Definition same (x y : nd) : Prop := rs y = rs x /\ stopping y = stopping x /\ gone y = gone x /\ cq y = cq x.

Lemma fok_same B f x x' y : same x x' -> fok B f x y -> fok B f x' y.
Proof. intros [E1 [E2 [E3 E4]]]. unfold fok. rewrite E1, E2, E3, E4. exact (fun h => h). Qed.
Lemma done_app y l : done y -> done (set_fq (fq y ++ l) y).
Proof. unfold done. fields. rewrite !in_app_iff. tauto. Qed.
Lemma fok_send B f x y l : fok B f x y -> ((In FAck l \/ In FStop l) -> In f (gone x) \/ rs x <> Run) -> fok B f x (set_fq (fq y ++ l) y).
Proof.
  intros [A [B' [C [D E]]]] H. unfold fok. split; [|split; [|split; [|split]]]; fields.
  - intros X Y. destruct (A X Y) as [Z|Z]; [left; exact Z|right]. intros W. apply app_eq_nil in W. apply Z, W.
  - exact B'.
  - unfold done. fields. rewrite !in_app_iff. intros [X|[[X|X]|[X|X]]]; try (apply H; auto; fail); apply C; unfold done; auto.
  - intros X Y Z. apply done_app. apply (D X Y Z).
  - intros X Y Z. apply done_app. apply (E X Y Z).
Qed.
Lemma finv_op B s s' c : finv B s -> (forall n, n <> c -> same (nodes s n) (nodes s' n)) -> (forall g, coreOf N g <> c -> fds s' g = fds s g) ->
  (forall g, In g (feds N c) -> coreOf N g = c -> fok B g (nodes s' c) (fds s' g)) -> (forall f, In (KReq f) (cq (nodes s' c)) \/ In (KDisc f) (cq (nodes s' c)) -> coreOf N f = c) ->
  (B -> forall n, ~ In DGlobal (dn (nodes s' n))) -> finv B s'.
Proof.
  intros [A [B1 C]] H1 H2 H3 H4 H5. split; [|split; [|exact H5]].
  - intros f I. destruct (Nat.eq_dec (coreOf N f) c) as [E|NE]; [rewrite E; apply H3; [rewrite <- E; exact I|exact E]|].
    rewrite (H2 f NE). apply (fok_same B f (nodes s (coreOf N f))); [apply H1, NE|apply A, I].
  - intros c' f I. destruct (Nat.eq_dec c' c) as [->|NE]; [apply H4, I|]. destruct (H1 c' NE) as [_ [_ [_ E]]]. rewrite E in I. apply (B1 c' f I).
Qed.
Lemma same_refl x : same x x. Proof. repeat split. Qed.
Lemma feds_coreOf c f : In f (feds N c) -> coreOf N f = c. Proof. apply WF. Qed.
Lemma in_toFeds c m s g : In g (feds N c) -> fst_ (fds s g) <> Fin -> In m (to g (toFeds N c m s)).
Proof.
  intros I NF. apply in_to. unfold toFeds. apply in_map_iff. exists g. split; [reflexivity|]. apply filter_In. split; [exact I|]. destruct (fst_ (fds s g)); [reflexivity|reflexivity|elim NF; reflexivity].
Qed.
Lemma toFeds_other c m s g : coreOf N g <> c -> to g (toFeds N c m s) = [].
Proof.
  intros NE. destruct (to g (toFeds N c m s)) as [|a l] eqn:E; [reflexivity|]. exfalso. apply NE, feds_coreOf. apply (toFeds_ne N c m s g). rewrite E. discriminate.
Qed.
Lemma set_fq_nil y : set_fq (fq y ++ []) y = y.
Proof. rewrite app_nil_r. destruct y. reflexivity. Qed.
Lemma set_dn_nil x : set_dn (dn x ++ []) x = x.
Proof. rewrite app_nil_r. destruct x. reflexivity. Qed.
Lemma same_sendD out s n : same (nodes s n) (nodes (sendD out s) n).
Proof. rewrite sendD_nd. repeat split. Qed.
Lemma same_trans x y z : same x y -> same y z -> same x z.
Proof. intros [A [B [C D]]] [A' [B' [C' D']]]. repeat split; congruence. Qed.

(** a step at a broker *)
Lemma finv_broker B s s' n : finv B s -> t_core T n = false -> (forall m, m <> n -> same (nodes s m) (nodes s' m)) -> cq (nodes s' n) = cq (nodes s n) -> fds s' = fds s ->
  (B -> forall m, ~ In DGlobal (dn (nodes s' m))) -> finv B s'.
Proof.
  intros F K H1 H2 H3 H4. apply (finv_op B s s' n F H1); [intros g _; rewrite H3; reflexivity| | |exact H4].
  - intros g I _. rewrite (proj1 (proj2 (proj2 WF)) n K) in I. destruct I.
  - intros f I. rewrite H2 in I. destruct F as [_ [F _]]. apply (F n f I).
Qed.
(** all federates of the core are told to stop *)
Lemma finv_tell B s c y m : finv B s -> t_core T c = true -> rs y <> Run -> (forall f, In f (gone (nodes s c)) -> In f (gone y)) -> cq y = cq (nodes s c) ->
  (B -> forall a, In a (dn y) -> In a (dn (nodes s c))) -> m <> FDisc -> finv B (sendF (toFeds N c m s) (setN c y s)).
Proof.
  intros F K R G Q D MF. destruct F as [FA [FB FC]]. apply (finv_op B s _ c (conj FA (conj FB FC))).
  - intros n NE. rewrite sendF_nodes, setN_neq by exact NE. apply same_refl.
  - intros g NE. rewrite sendF_fd, toFeds_other by exact NE. rewrite setN_fds. apply set_fq_nil.
  - intros g I E. rewrite sendF_fd, sendF_nodes, setN_eq, setN_fds. specialize (FA g ltac:(rewrite E; exact I)). rewrite E in FA. destruct FA as [A1 [A2 [A3 [A4 A5]]]].
    assert (done (set_fq (fq (fds s g) ++ to g (toFeds N c m s)) (fds s g))) as DN.
    { destruct (fst_ (fds s g)) eqn:ST; [| |left; exact ST].
      all: right; fields; rewrite !in_app_iff; pose proof (in_toFeds c m s g I ltac:(congruence)); destruct m; [elim MF; reflexivity| |]; auto. }
    unfold fok. rewrite Q. split; [|split; [|split; [|split]]].
    + fields. intros X Y. destruct (A1 X Y) as [Z|Z]; [left; exact Z|right; intros W; apply app_eq_nil in W; apply Z, W].
    + fields. intros X. destruct (A2 X) as [Z|Z]; auto.
    + intros _. right. exact R.
    + intros _ _ _. exact DN.
    + intros _ _ X. contradiction.
  - intros f. rewrite sendF_nodes, setN_eq, Q. apply FB.
  - intros b n. rewrite sendF_nodes. destruct (Nat.eq_dec n c) as [->|NE]; [rewrite setN_eq; intros I; apply (FC b c), (D b _ I)|rewrite setN_neq by exact NE; apply (FC b)].
Qed.

Lemma finv_step (B : Prop) s e : (B -> forall n, e <> EUser n) -> (B -> forall f, In f (feds N (coreOf N f)) -> rs (nodes s (coreOf N f)) <> Run -> called (fds s f) = true) ->
  linv T N s -> finv B s -> finv B (step s e).
Proof.
  intros NU CA [NV PV] F. pose proof F as [FA [FB FC]].
  assert (forall f, In f (feds N (coreOf N f)) -> t_core T (coreOf N f) = true) as KC.
  { intros f I. destruct (t_core T (coreOf N f)) eqn:E; [reflexivity|]. rewrite (proj1 (proj2 (proj2 WF)) _ E) in I. destruct I. }
  assert (forall c, t_core T c = true -> stopping (nodes s c) = true \/ rs (nodes s c) = Stop -> rs (nodes s c) <> Run) as SR.
  { intros c K H. apply (left_Run T N c _ K). apply (proj1 (nodeL_left T N c _ (NV c) H)). }
  assert (forall c g, In g (feds N c) -> fok B g (nodes s c) (fds s g)) as FG by (intros c g I; pose proof (feds_coreOf c g I) as E; specialize (FA g ltac:(rewrite E; exact I)); rewrite E in FA; exact FA).
  destruct e as [f|f|c|k|n|n|c|n|n].
  - cbn [step]. destruct (called (fds s f) || negb (isIn f (feds N (coreOf N f)))) eqn:C; [exact F|]. apply orb_false_iff in C as [C0 C]. apply negb_false_iff, isIn_iff in C. set (c := coreOf N f) in *.
    pose proof (FG c f C) as [A1 [A2 [A3 [A4 A5]]]]. destruct (isRun (rs (nodes s c))) eqn:R.
    + apply isRun_iff in R. apply (finv_op B s _ c F).
      * intros n NE. rewrite setF_nodes, setN_neq by exact NE. apply same_refl.
      * intros g NE. rewrite setF_neq by (intros ->; apply NE; reflexivity). reflexivity.
      * intros g I E. rewrite setF_nodes, setN_eq. destruct (Nat.eq_dec g f) as [->|NE].
        -- rewrite setF_eq. unfold fok, done in *. fields. rewrite !in_app_iff. split; [intros _ _; left; right; left; reflexivity|]. split; [intros X; destruct (A2 X) as [Z|Z]; auto|]. split; [exact A3|].
           split; [|exact A5]. intros _ X _. exfalso. apply (SR c (KC f C) X), R.
        -- rewrite setF_neq by exact NE. rewrite setN_fds. destruct (FG c g I) as [B1 [B2 [B3 [B4 B5]]]]. unfold fok. fields. rewrite !in_app_iff. split; [intros X Y; destruct (B1 X Y); auto|]. split; [intros X; destruct (B2 X); auto|]. split; [exact B3|]. split; [exact B4|exact B5].
      * intros g. rewrite setF_nodes, setN_eq. fields. rewrite !in_app_iff. intros [[X|[X|[]]]|[X|[X|[]]]]; [apply FB; left; exact X|injection X as <-; reflexivity|apply FB; right; exact X|discriminate].
      * intros b n. rewrite setF_nodes. destruct (Nat.eq_dec n c) as [->|NE]; [rewrite setN_eq; exact (FC b c)|rewrite setN_neq by exact NE; apply (FC b)].
    + apply isRun_not in R. assert (B -> False) as NB by (intros b; rewrite (CA b f C R) in C0; discriminate). apply (finv_op B s _ c F).
      * intros n NE. rewrite setF_nodes, setN_neq by exact NE. apply same_refl.
      * intros g NE. rewrite setF_neq by (intros ->; apply NE; reflexivity). reflexivity.
      * intros g I E. rewrite setF_nodes, setN_eq. destruct (Nat.eq_dec g f) as [->|NE].
        -- rewrite setF_eq. unfold fok. fields. split; [intros _ _; right; intros W; apply app_eq_nil in W as [_ W]; discriminate|]. split; [exact A2|]. split; [intros _; right; exact R|]. split; [intros b; elim (NB b)|intros _ _ X; contradiction].
        -- rewrite setF_neq by exact NE. rewrite setN_fds. destruct (FG c g I) as [B1 [B2 [B3 [B4 B5]]]]. unfold fok. fields. split; [exact B1|]. split; [exact B2|]. split; [exact B3|]. split; [intros b; elim (NB b)|exact B5].
      * intros g. rewrite setF_nodes, setN_eq. apply FB.
      * intros b. elim (NB b).
  - cbn [step]. destruct (isFin (fst_ (fds s f))) eqn:FF; [exact F|]. destruct (fq (fds s f)) as [|m r] eqn:Q; [exact F|]. set (c := coreOf N f) in *.
    assert (forall y' x', same (nodes s c) (set_cq (cq (nodes s c)) x') -> (exists l, cq x' = cq (nodes s c) ++ l /\ forall g, In (KReq g) l \/ In (KDisc g) l -> g = f) -> dn x' = dn (nodes s c) ->
      (In f (feds N c) -> fok B f (nodes s c) (fds s f) -> fok B f x' y') -> finv B (setF f y' (setN c x' s))) as GEN.
    { intros y' x' [E1 [E2 [E3 _]]] [l [EL HL]] ED H. fields. apply (finv_op B s _ c F).
      - intros n NE. rewrite setF_nodes, setN_neq by exact NE. apply same_refl.
      - intros g NE. rewrite setF_neq by (intros ->; apply NE; reflexivity). reflexivity.
      - intros g I E. rewrite setF_nodes, setN_eq. destruct (Nat.eq_dec g f) as [->|NE].
        + rewrite setF_eq. apply H; [exact I|apply FG, I].
        + rewrite setF_neq by exact NE. rewrite setN_fds. destruct (FG c g I) as [B1 [B2 [B3 [B4 B5]]]]. unfold fok. rewrite E1, E2, E3, EL. rewrite !in_app_iff.
          split; [intros X Y; destruct (B1 X Y); auto|]. split; [intros X; destruct (B2 X); auto|]. split; [exact B3|]. split; [exact B4|exact B5].
      - intros g. rewrite setF_nodes, setN_eq, EL, !in_app_iff. intros [[X|X]|[X|X]]; [apply FB; left; exact X|rewrite (HL g (or_introl X)); reflexivity|apply FB; right; exact X|rewrite (HL g (or_intror X)); reflexivity].
      - intros b n. rewrite setF_nodes. destruct (Nat.eq_dec n c) as [->|NE]; [rewrite setN_eq, ED; exact (FC b c)|rewrite setN_neq by exact NE; apply (FC b)]. }
    assert (forall y', (In f (feds N c) -> fok B f (nodes s c) (fds s f) -> fok B f (nodes s c) y') -> finv B (setF f y' s)) as GEN0.
    { intros y' H. assert (finv B (setF f y' (setN c (nodes s c) s))) as X by (apply GEN; [repeat split|exists []; rewrite app_nil_r; split; [reflexivity|intros g [[]|[]]]|reflexivity|exact H]).
      destruct X as [X1 [X2 X3]]. assert (forall n, nodes (setF f y' (setN c (nodes s c) s)) n = nodes s n) as EN by (intros n; rewrite setF_nodes; destruct (Nat.eq_dec n c) as [->|NE]; [apply setN_eq|apply setN_neq, NE]).
      split; [|split]; rewrite ?setF_nodes.
      - intros g I. specialize (X1 g I). rewrite EN in X1. exact X1.
      - intros c' g I. apply X2. rewrite EN. exact I.
      - intros b n I. apply (X3 b n). rewrite EN. exact I. }
    destruct m.
    + destruct (fst_ (fds s f)) eqn:ST.
      * apply GEN; fields; try reflexivity; [repeat split|exists [KDisc f]; split; [reflexivity|intros g [[X|[]]|[X|[]]]; [discriminate|injection X as ->; reflexivity]]|].
        intros I [A1 [A2 [A3 [A4 A5]]]]. unfold fok, done in *. fields. rewrite !in_app_iff. rewrite Q, ST in *. split; [discriminate|]. split; [intros _; left; right; left; reflexivity|].
        assert (forall X Y : Prop, (Act = Fin \/ In FAck (FDisc :: r) \/ In FStop (FDisc :: r) -> X) -> (X -> Y) -> (Terming = Fin \/ In FAck r \/ In FStop r) -> Y) as WW by (intros X Y H1 H2 [W|[W|W]]; [discriminate|apply H2, H1; right; left; right; exact W|apply H2, H1; right; right; right; exact W]).
        split; [apply (WW _ _ A3 (fun h => h))|]. assert (Act = Fin \/ In FAck (FDisc :: r) \/ In FStop (FDisc :: r) -> Terming = Fin \/ In FAck r \/ In FStop r) as VV by (intros [W|[[W|W]|[W|W]]]; try discriminate; auto).
        split; [intros b X Y; apply VV, (A4 b X Y)|intros X Y Z; apply VV, (A5 X Y Z)].
      * apply GEN0. intros I [A1 [A2 [A3 [A4 A5]]]]. unfold fok, done in *. fields. rewrite Q, ST in *. split; [discriminate|]. split; [exact A2|].
        split; [intros [W|[W|W]]; [discriminate|apply A3; right; left; right; exact W|apply A3; right; right; right; exact W]|].
        assert (Terming = Fin \/ In FAck (FDisc :: r) \/ In FStop (FDisc :: r) -> Terming = Fin \/ In FAck r \/ In FStop r) as VV by (intros [W|[[W|W]|[W|W]]]; try discriminate; auto).
        split; [intros b X Y; apply VV, (A4 b X Y)|intros X Y Z; apply VV, (A5 X Y Z)].
      * discriminate.
    + apply GEN0. intros I [A1 [A2 [A3 [A4 A5]]]]. unfold fok, done in *. fields. rewrite Q in *. split; [discriminate|]. split; [discriminate|]. split; [intros _; apply A3; right; left; left; reflexivity|]. split; intros; left; reflexivity.
    + apply GEN0. intros I [A1 [A2 [A3 [A4 A5]]]]. unfold fok, done in *. fields. rewrite Q in *. split; [discriminate|]. split; [discriminate|]. split; [intros _; apply A3; right; right; left; reflexivity|]. split; intros; left; reflexivity.
  - (* the core takes a command of its federate *)
    cbn [step]. destruct (isStop (rs (nodes s c)) || negb (t_core T c)) eqn:G; [exact F|]. apply orb_false_iff in G as [GS G]. apply negb_false_iff in G. apply isStop_not in GS.
    destruct (cq (nodes s c)) as [|m r] eqn:Q; [exact F|]. destruct m as [f|f].
    + assert (coreOf N f = c) as EC by (apply FB; rewrite Q; left; left; reflexivity). apply (finv_op B s _ c F).
      * intros n NE. rewrite sendF_nodes, setN_neq by exact NE. apply same_refl.
      * intros g NE. rewrite sendF_fd, setN_fds. replace (to g (if isFin (fst_ (fds s f)) then [] else [(f, FDisc)])) with (@nil fmsg); [apply set_fq_nil|].
        destruct (isFin _); [reflexivity|]. unfold to. cbn [filter fst]. destruct (Nat.eqb_spec f g) as [->|_]; [contradiction|reflexivity].
      * intros g I E. rewrite sendF_fd, sendF_nodes, setN_eq, setN_fds. destruct (FG c g I) as [B1 [B2 [B3 [B4 B5]]]]. rewrite Q in *.
        set (l := to g _). assert (forall m, In m l -> m = FDisc) as HL.
        { intros m X. apply in_to in X. destruct (isFin _); [destruct X|]. destruct X as [X|[]]. injection X as _ <-. reflexivity. }
        assert (done (set_fq (fq (fds s g) ++ l) (fds s g)) <-> done (fds s g)) as DD.
        { split; [|apply done_app]. unfold done. fields. rewrite !in_app_iff. intros [X|[[X|X]|[X|X]]]; auto; apply HL in X; discriminate. }
        unfold fok. rewrite DD. fields. split; [|split; [|split; [|split]]].
        -- intros X Y. destruct (B1 X Y) as [[Z|Z]|Z]; [right|left; exact Z|right; intros W; apply app_eq_nil in W; apply Z, W]. injection Z as ->.
           unfold l. rewrite Y. cbn [isFin]. unfold to. cbn [filter fst]. rewrite Nat.eqb_refl. cbn. intros W. apply app_eq_nil in W as [_ W]. discriminate.
        -- intros X. destruct (B2 X) as [[Z|Z]|Z]; [discriminate|left; exact Z|right; exact Z].
        -- exact B3.
        -- exact B4.
        -- exact B5.
      * intros g. rewrite sendF_nodes, setN_eq. fields. intros [X|X]; apply FB; rewrite Q; [left|right]; right; exact X.
      * intros b n. rewrite sendF_nodes. destruct (Nat.eq_dec n c) as [->|NE]; [rewrite setN_eq; exact (FC b c)|rewrite setN_neq by exact NE; apply (FC b)].
    + assert (coreOf N f = c) as EC by (apply FB; rewrite Q; right; left; reflexivity).
      (* what the core does *)
      assert (exists y a, coreDisc N c f (set_cq r (nodes s c)) = (y, a) /\ gone y = f :: gone (nodes s c) /\ stopping y = stopping (nodes s c) /\ cq y = r /\ dn y = dn (nodes s c) /\
        (rs y = rs (nodes s c) \/ rs y = Term) /\ (rs y = Run -> glob N = false -> In f (feds N c) -> a = true) /\ (a = true -> True)) as [y [a [ED [Y1 [Y2 [Y3 [Y4 [Y5 [Y6 _]]]]]]]]].
      { unfold coreDisc. cbv zeta. set (x1 := set_gone (f :: gone (set_cq r (nodes s c))) (set_cq r (nodes s c))).
        assert (gone (check N c x1) = gone x1 /\ stopping (check N c x1) = stopping x1 /\ cq (check N c x1) = cq x1 /\ dn (check N c x1) = dn x1 /\ (rs (check N c x1) = rs x1 \/ rs (check N c x1) = Term) /\
          (rs (check N c x1) = Run -> allFeds N c (check N c x1) = false)) as [C1 [C2 [C3 [C4 [C5 C6]]]]].
        { unfold check. destruct (isRun (rs x1) && allFeds N c x1) eqn:E.
          - fields. do 4 (split; [reflexivity|]). split; [right; reflexivity|discriminate].
          - do 4 (split; [reflexivity|]). split; [left; reflexivity|]. intros R. rewrite R in E. exact E. }
        set (x2 := check N c x1) in *. clearbody x2. destruct (isRun (rs x2) || _ || _) eqn:E.
        - do 2 eexists. split; [reflexivity|]. fields. rewrite C1, C2, C3, C4. do 4 (split; [reflexivity|]). split; [exact C5|]. split; [|intros; exact I].
          intros R GL _. rewrite GL. rewrite (C6 R). rewrite !orb_true_r. reflexivity.
        - do 2 eexists. split; [reflexivity|]. rewrite C1, C2, C3, C4. do 4 (split; [reflexivity|]). split; [exact C5|]. split; [|intros; exact I]. intros R. rewrite R in E. discriminate. }
      rewrite ED. clear ED. apply (finv_op B s _ c F).
      * intros n NE. rewrite sendF_nodes, setN_neq by exact NE. apply same_refl.
      * intros g NE. rewrite sendF_fd, setN_fds. replace (to g (if a && negb (isFin (fst_ (fds s f))) then [(f, FAck)] else [])) with (@nil fmsg); [apply set_fq_nil|].
        destruct (_ && _); [|reflexivity]. unfold to. cbn [filter fst]. destruct (Nat.eqb_spec f g) as [->|_]; [contradiction|reflexivity].
      * intros g I E. rewrite sendF_fd, sendF_nodes, setN_eq, setN_fds. destruct (FG c g I) as [B1 [B2 [B3 [B4 B5]]]]. rewrite Q in *.
        set (l := to g _). assert (l <> [] -> g = f) as HL.
        { unfold l. destruct (_ && _); [|intros X; elim X; reflexivity]. unfold to. cbn [filter fst]. destruct (Nat.eqb_spec f g) as [->|_]; [reflexivity|intros X; elim X; reflexivity]. }
        assert (forall m, In m l -> g = f) as HL' by (intros m X; apply HL; intros W; rewrite W in X; destruct X).
        split; [|split; [|split; [|split]]].
        -- fields. rewrite Y3. intros X Y. destruct (B1 X Y) as [[Z|Z]|Z]; [discriminate|left; exact Z|right; intros W; apply app_eq_nil in W; apply Z, W].
        -- fields. rewrite Y3, Y1. intros X. destruct (B2 X) as [[Z|Z]|Z]; [injection Z as ->; right; left; reflexivity|left; exact Z|right; right; exact Z].
        -- rewrite Y1. intros D. assert (g = f \/ done (fds s g)) as [->|D'].
           { unfold done in *. fields. rewrite !in_app_iff in D. destruct D as [D|[[D|D]|[D|D]]]; auto; left; apply (HL' _ D). }
           ++ left. left. reflexivity.
           ++ destruct (B3 D') as [Z|Z]; [left; right; exact Z|]. right. destruct Y5 as [Y5|Y5]; congruence.
        -- intros b [S|S] X; apply done_app, (B4 b); try exact X; [left; congruence|right; destruct Y5; congruence].
        -- rewrite Y1. intros GL GI R. destruct (Nat.eq_dec g f) as [->|NE].
           ++ specialize (Y6 R GL I). destruct (isFin (fst_ (fds s f))) eqn:FN; [left; fields; destruct (fst_ (fds s f)); try discriminate; reflexivity|].
              right. left. fields. apply in_or_app. right. unfold l. rewrite Y6. cbn [andb negb]. apply in_to. left. reflexivity.
           ++ apply done_app, (B5 GL); [destruct GI as [W|W]; [congruence|exact W]|]. destruct Y5; congruence.
      * intros g. rewrite sendF_nodes, setN_eq, Y3. intros [X|X]; apply FB; rewrite Q; [left|right]; right; exact X.
      * intros b n. rewrite sendF_nodes. destruct (Nat.eq_dec n c) as [->|NE]; [rewrite setN_eq, Y4; exact (FC b c)|rewrite setN_neq by exact NE; apply (FC b)].
  - (* the parent takes a command *)
    cbn [step]. destruct (t_parent T k) as [p|] eqn:PP; [|exact F]. destruct (up (nodes s k)) as [|m r] eqn:UK; [exact F|]. destruct (isIn k (kids N p)) eqn:IK; [|exact F]. apply isIn_iff in IK.
    pose proof (kid_neq T N HT WF p k IK) as NPK. cbv zeta. set (s1 := setN k (set_up r (nodes s k)) s).
    assert (t_core T p = false) as KP. { destruct (t_core T p) eqn:E; [|reflexivity]. rewrite (proj1 (proj2 WF) p E) in IK. destruct IK. }
    assert (nodes s1 p = nodes s p) as EP by (apply setN_neq; exact NPK). rewrite EP.
    assert (forall n, same (nodes s n) (nodes s1 n) /\ dn (nodes s1 n) = dn (nodes s n)) as S1 by (intros n; unfold s1; destruct (Nat.eq_dec n k) as [->|NE]; [rewrite setN_eq|rewrite setN_neq by exact NE]; repeat split).
    destruct (isStop (rs (nodes s p))).
    { apply (finv_broker B s s1 p F KP); [intros n _; apply S1|destruct (S1 p) as [[_ [_ [_ X]]] _]; exact X|reflexivity|]. intros b n. rewrite (proj2 (S1 n)). apply (FC b). }
    assert (forall y out, (y, out) = (match m with UDisc => brokerDisc T N p k (nodes s p) | _ => brokerPass T N p m (nodes s p) end) -> cq y = cq (nodes s p) /\ dn y = dn (nodes s p) /\ forall j, ~ In (j, DGlobal) out) as SH.
    { assert (forall x j a, In (j, a) (bcast N p x) -> a = DBcast) as BC by (intros x j a; apply bcast_in).
      assert (forall x j a, In (j, a) (ackAll N p x) -> a = DAck) as AC by (intros x j a J; unfold ackAll in J; apply in_map_iff in J as [i [E _]]; injection E as _ <-; reflexivity).
      intros y out E. destruct m.
      - unfold brokerDisc in E. cbv zeta in E. revert E. set (x1 := set_gone _ _). set (o := if _ && _ then bcast N p x1 else []).
        assert (forall j, ~ In (j, DGlobal) o) as HO by (intros j J; unfold o in J; destruct (_ && _); [apply BC in J; discriminate|destruct J]). clearbody o.
        destruct (allKids N p x1).
        + destruct (p =? root); [destruct (glob N)|]; intros E; injection E as -> ->; (split; [reflexivity|]; split; [reflexivity|]); intros j J.
          * apply in_app_iff in J as [J|J]; [apply (HO j J)|apply AC in J; discriminate].
          * apply in_app_iff in J as [J|[J|[]]]; [apply (HO j J)|discriminate].
          * apply (HO j J).
        + destruct (glob N); destruct (negb (p =? root) && negb (oper x1)); intros E; injection E as -> ->; (split; [reflexivity|]; split; [reflexivity|]); intros j J;
          (apply in_app_iff in J as [J|J]; [apply (HO j J)|]); try (destruct J as [J|[]]; discriminate); destruct J.
      - unfold brokerPass in E. destruct (p =? root); injection E as -> ->; (split; [reflexivity|]; split; [reflexivity|]); intros j J; [destruct (oper _); [destruct J|apply BC in J; discriminate]|destruct J].
      - unfold brokerPass in E. destruct (p =? root); injection E as -> ->; (split; [reflexivity|]; split; [reflexivity|]); intros j J; [destruct (oper _); [destruct J|apply BC in J; discriminate]|destruct J]. }
    destruct (match m with UDisc => brokerDisc T N p k (nodes s p) | _ => brokerPass T N p m (nodes s p) end) as [y out]. destruct (SH y out eq_refl) as [Y1 [Y2 Y3]].
    apply (finv_broker B s _ p F KP).
    + intros n NE. apply (same_trans _ (nodes s1 n)); [apply S1|]. apply (same_trans _ (nodes (setN p y s1) n)); [rewrite setN_neq by exact NE; apply same_refl|apply same_sendD].
    + rewrite sendD_nd, setN_eq. exact Y1.
    + reflexivity.
    + intros b n. rewrite sendD_nd. fields. rewrite in_app_iff, in_to. intros [X|X]; [|apply (Y3 n X)]. destruct (Nat.eq_dec n p) as [->|NE]; [rewrite setN_eq, Y2 in X; apply (FC b _ X)|].
      rewrite setN_neq in X by exact NE. rewrite (proj2 (S1 n)) in X. apply (FC b _ X).
  - (* from the parent *)
    cbn [step]. destruct (isStop (rs (nodes s n))) eqn:SN; [exact F|]. destruct (dn (nodes s n)) as [|m r] eqn:D; [exact F|]. cbv zeta.
    assert (forall a, In a r -> In a (dn (nodes s n))) as IR by (intros a H; rewrite D; right; exact H).
    assert (m = DGlobal -> B -> False) as MB by (intros -> b; apply (FC b n); rewrite D; left; reflexivity).
    destruct (t_core T n) eqn:K.
    + destruct m.
      * apply finv_tell; fields; try assumption; try reflexivity; try discriminate; [|intros f H; exact H|intros b; exact IR].
        apply (left_Run T N n _ K). apply nodeL_ack; [apply NV|]. rewrite D. left. reflexivity.
      * unfold coreGlobal. fields. destruct (isRun (rs (nodes s n))) eqn:R.
        -- apply finv_tell; fields; try assumption; try reflexivity; try discriminate; [intros f H; exact H|intros b; exact IR].
        -- apply (finv_op B s _ n F).
           ++ intros q NE. rewrite sendF_nodes, setN_neq by exact NE. apply same_refl.
           ++ intros g NE. rewrite sendF_fd. apply set_fq_nil.
           ++ intros g I E. rewrite sendF_fd, sendF_nodes, setN_eq, setN_fds. cbn [to map filter]. rewrite set_fq_nil. destruct (FG n g I) as [B1 [B2 [B3 [B4 B5]]]].
              unfold fok. fields. do 3 (split; [assumption|]). split; [intros b; elim (MB eq_refl b)|exact B5].
           ++ intros f. rewrite sendF_nodes, setN_eq. apply FB.
           ++ intros b. elim (MB eq_refl b).
      * apply (finv_op B s _ n F).
        -- intros q NE. rewrite setN_neq by exact NE. apply same_refl.
        -- reflexivity.
        -- intros g I E. rewrite setN_eq, setN_fds. destruct (FG n g I) as [B1 [B2 [B3 [B4 B5]]]]. unfold check. destruct (_ && _) eqn:CK; unfold fok; fields.
           ++ apply andb_true_iff in CK as [CK _]. apply isRun_iff in CK. do 2 (split; [assumption|]). split; [intros _; right; discriminate|]. split; [|intros _ _ X; discriminate].
              intros b [X|X]; [|discriminate]. apply (B4 b). left. exact X.
           ++ do 4 (split; [assumption|]). exact B5.
        -- intros f. rewrite setN_eq. unfold check. destruct (_ && _); apply FB.
        -- intros b q. destruct (Nat.eq_dec q n) as [->|NE]; [|rewrite setN_neq by exact NE; apply (FC b)]. rewrite setN_eq. unfold check. destruct (_ && _); fields; intros X; apply (FC b n), IR, X.
    + assert (forall y out, cq y = cq (nodes s n) -> (B -> forall a, In a (dn y) -> In a (dn (nodes s n))) -> (B -> forall j, ~ In (j, DGlobal) out) -> finv B (sendD out (setN n y s))) as GEN.
      { intros y out Y1 Y2 Y3. apply (finv_broker B s _ n F K).
        - intros q NE. apply (same_trans _ (nodes (setN n y s) q)); [rewrite setN_neq by exact NE; apply same_refl|apply same_sendD].
        - rewrite sendD_nd, setN_eq. exact Y1.
        - reflexivity.
        - intros b q. rewrite sendD_nd. fields. rewrite in_app_iff, in_to. intros [X|X]; [|apply (Y3 b q X)]. destruct (Nat.eq_dec q n) as [->|NE]; [rewrite setN_eq in X; apply (FC b n), (Y2 b _ X)|].
          rewrite setN_neq in X by exact NE. apply (FC b _ X). }
      destruct m.
      * cbn [brokerAck]. apply GEN; [reflexivity|intros b; exact IR|]. intros b j J. unfold ackAll in J. apply in_map_iff in J as [i [E _]]. discriminate.
      * destruct (brokerGlobal N n (set_dn r (nodes s n))) as [y out] eqn:E. apply GEN; [injection E as <- _; reflexivity|intros b; elim (MB eq_refl b)|intros b; elim (MB eq_refl b)].
      * apply GEN; [reflexivity|intros b; exact IR|]. intros b j J. apply bcast_in in J. discriminate.
  - (* stop *)
    cbn [step]. destruct (stopping (nodes s n) && negb (isStop (rs (nodes s n)))) eqn:G; [|exact F]. apply andb_true_iff in G as [G1 _]. destruct (t_core T n) eqn:K.
    + pose proof (SR n K (or_introl G1)) as R. unfold coreStop. destruct (isRun (rs (nodes s n))) eqn:R'; [apply isRun_iff in R'; contradiction|]. apply (finv_op B s _ n F).
      * intros q NE. rewrite sendF_nodes, setN_neq by exact NE. apply same_refl.
      * intros g NE. rewrite sendF_fd. apply set_fq_nil.
      * intros g I E. rewrite sendF_fd, sendF_nodes, setN_eq, setN_fds. cbn [to map filter]. rewrite set_fq_nil. destruct (FG n g I) as [B1 [B2 [B3 [B4 B5]]]].
        unfold fok. fields. do 2 (split; [assumption|]). split; [intros _; right; discriminate|]. split; [intros b _; apply (B4 b); left; exact G1|intros _ _ X; discriminate].
      * intros f. rewrite sendF_nodes, setN_eq. apply FB.
      * intros b q. rewrite sendF_nodes. destruct (Nat.eq_dec q n) as [->|NE]; [rewrite setN_eq; exact (FC b n)|rewrite setN_neq by exact NE; apply (FC b)].
    + apply (finv_broker B s _ n F K).
      * intros q NE. rewrite setN_neq by exact NE. apply same_refl.
      * rewrite setN_eq. unfold brokerStop. destruct (_ && _); reflexivity.
      * reflexivity.
      * intros b q. destruct (Nat.eq_dec q n) as [->|NE]; [rewrite setN_eq; unfold brokerStop; destruct (_ && _); exact (FC b n)|rewrite setN_neq by exact NE; apply (FC b)].
  - (* the timer *)
    cbn [step]. destruct (t_core T c && armed (nodes s c) && negb (isStop (rs (nodes s c)))) eqn:G; [|exact F]. apply andb_true_iff in G as [G _]. apply andb_true_iff in G as [K G].
    apply finv_tell; fields; try assumption; try reflexivity; try discriminate; [apply (proj1 (proj2 (NV c)) G)|intros f H; exact H|intros b a H; exact H].
  - cbn [step]. apply (finv_op B s _ n F).
    + intros q NE. rewrite setN_neq by exact NE. apply same_refl.
    + reflexivity.
    + intros g I E. rewrite setN_eq. apply (fok_same B g (nodes s n)); [repeat split|apply FG, I].
    + intros f. rewrite setN_eq. apply FB.
    + intros b q. destruct (Nat.eq_dec q n) as [->|NE]; [rewrite setN_eq; exact (FC b n)|rewrite setN_neq by exact NE; apply (FC b)].
  - (* disconnect() *)
    assert (B -> False) as NB by (intros b; apply (NU b n); reflexivity).
    cbn [step]. destruct (isStop (rs (nodes s n))) eqn:SN; [exact F|]. destruct (t_core T n) eqn:K.
    + unfold coreGlobal. destruct (isRun (rs (nodes s n))) eqn:R.
      * apply finv_tell; fields; try assumption; try reflexivity; try discriminate; [intros f H; exact H|intros b; elim (NB b)].
      * apply (finv_op B s _ n F).
        -- intros q NE. rewrite sendF_nodes, setN_neq by exact NE. apply same_refl.
        -- intros g NE. rewrite sendF_fd. apply set_fq_nil.
        -- intros g I E. rewrite sendF_fd, sendF_nodes, setN_eq, setN_fds. cbn [to map filter]. rewrite set_fq_nil. destruct (FG n g I) as [B1 [B2 [B3 [B4 B5]]]].
           unfold fok. fields. do 3 (split; [assumption|]). split; [intros b; elim (NB b)|exact B5].
        -- intros f. rewrite sendF_nodes, setN_eq. apply FB.
        -- intros b. elim (NB b).
    + destruct (brokerGlobal N n (nodes s n)) as [y out] eqn:E. apply (finv_broker B s _ n F K).
      * intros q NE. apply (same_trans _ (nodes (setN n y s) q)); [rewrite setN_neq by exact NE; apply same_refl|apply same_sendD].
      * rewrite sendD_nd, setN_eq. injection E as <- _. reflexivity.
      * reflexivity.
      * intros b. elim (NB b).
Qed.

Lemma noUser_app h e : noUser (h ++ [e]) -> noUser h.
Proof. intros U n I. apply (U n), in_or_app. left. exact I. Qed.
Lemma fair_app h e : fair T (h ++ [e]) -> fair T h.
Proof. intros U n I. apply (U n), in_or_app. left. exact I. Qed.
Lemma fok_weaken (A B : Prop) f x y : (B -> A) -> fok A f x y -> fok B f x y.
Proof. intros H [A1 [A2 [A3 [A4 A5]]]]. do 3 (split; [assumption|]). split; [intros b; apply A4, H, b|exact A5]. Qed.
Lemma finv_run h : fair T h -> finv (noUser h) (run T N h).
Proof.
  induction h as [|e h IH] using rev_ind; intros FH.
  - split; [|split].
    + intros f I. split; [discriminate|]. split; [discriminate|]. split; [intros [X|[[]|[]]]; discriminate|]. split; [intros _ [X|X]; discriminate|intros _ []].
    + intros c f [[]|[]].
    + intros _ n [].
  - specialize (IH (fair_app _ _ FH)). unfold run. rewrite fold_left_app. cbn [fold_left]. change (fold_left (Shutdown.step T N) h gs0) with (run T N h). apply finv_step.
    + intros B n ->. apply (B n), in_or_app. right. left. reflexivity.
    + intros B f I R. destruct (inv_run T N HT WF h) as [NV _]. destruct (NV (coreOf N f)) as [X _]. destruct (X (or_introl R) (coreOf N f) f (under_refl N _) I) as [Y|[m [Y _]]]; [exact Y|].
      elim (noUser_app _ _ B m Y).
    + apply (linv_run T N HT WF). apply (fair_app _ _ FH).
    + destruct IH as [A [B C]]. split; [intros f I; apply (fok_weaken _ _ f _ _ (noUser_app h e)), A, I|]. split; [exact B|]. intros U. apply C, (noUser_app _ _ U).
Qed.

(** ** what it means that nothing is left to do *)
Lemma settled_stop s n : settled T N s -> member T N n -> stopping (nodes s n) = true -> rs (nodes s n) = Stop.
Proof.
  intros ST M E. specialize (ST (EStop n) I M). cbn [Shutdown.step] in ST. rewrite E in ST. cbn [andb] in ST. destruct (isStop (rs (nodes s n))) eqn:R; [apply isStop_iff, R|]. cbn [negb] in ST.
  destruct (t_core T n).
  - unfold coreStop in ST. destruct (isRun _); apply (f_equal (fun x => rs (nodes x n))) in ST; rewrite sendF_nodes, setN_eq in ST; symmetry; exact ST.
  - apply (f_equal (fun x => rs (nodes x n))) in ST. rewrite setN_eq in ST. symmetry. exact ST.
Qed.
Lemma cons_ne {A} (a : A) l : l <> a :: l.
Proof. intros E. apply (f_equal (@length A)) in E. cbn in E. lia. Qed.
Lemma settled_dn s n : settled T N s -> member T N n -> rs (nodes s n) <> Stop -> dn (nodes s n) = [].
Proof.
  intros ST M R. specialize (ST (EDown n) I M). cbn [Shutdown.step] in ST. apply isStop_not in R. rewrite R in ST. destruct (dn (nodes s n)) as [|m r] eqn:D; [reflexivity|]. exfalso. cbv zeta in ST.
  assert (forall y out, dn y = r -> (forall j a, In (j, a) out -> In j (kids N n)) -> sendD out (setN n y s) <> s) as G.
  { intros y out E H X. apply (f_equal (fun x => dn (nodes x n))) in X. rewrite sendD_nd, setN_eq in X. fields. replace (to n out) with (@nil dmsg) in X.
    - rewrite E, app_nil_r, D in X. apply (cons_ne _ _ X).
    - destruct (to n out) as [|a l] eqn:O; [reflexivity|]. exfalso. assert (In a (to n out)) as J by (rewrite O; left; reflexivity). apply in_to in J. apply (kid_neq T N HT WF n n (H _ _ J)). reflexivity. }
  assert (forall y s', dn y = r -> nodes s' = nodes (setN n y s) -> s' <> s) as G0.
  { intros y s' E E' X. apply (f_equal (fun x => dn (nodes x n))) in X. rewrite E', setN_eq, E, D in X. apply (cons_ne _ _ X). }
  destruct (t_core T n); destruct m.
  - revert ST. apply G0 with (y := set_stopping true (set_dn r (nodes s n))); reflexivity.
  - destruct (coreGlobal (set_dn r (nodes s n))) as [y a] eqn:E. revert ST. apply G0 with (y := y); [|reflexivity]. unfold coreGlobal in E. destruct (isRun _); injection E as <- _; reflexivity.
  - revert ST. apply G0 with (y := check N n (set_dn r (nodes s n))); [|reflexivity]. unfold check. destruct (_ && _); reflexivity.
  - revert ST. cbn [brokerAck]. apply G; [reflexivity|]. intros j a J. unfold ackAll in J. apply in_map_iff in J as [i [E J]]. injection E as -> _. apply filter_In in J. apply J.
  - revert ST. cbn [brokerGlobal]. apply G; [reflexivity|]. intros j a J. apply in_flat_map in J as [i [J1 J]]. destruct (negb _); [destruct J as [J|[]]; injection J as -> _; exact J1|].
    destruct (negb _); [destruct J as [J|[]]; injection J as -> _; exact J1|destruct J].
  - revert ST. apply G; [reflexivity|]. intros j a J. unfold bcast in J. apply in_map_iff in J as [i [E J]]. injection E as -> _. apply filter_In in J. apply J.
Qed.
Lemma settled_up s p k : settled T N s -> member T N p -> In k (kids N p) -> up (nodes s k) = [].
Proof.
  intros ST M J. specialize (ST (EUp k) I (member_kid T N p k M J)). cbn [Shutdown.step] in ST. rewrite (proj1 WF p k J) in ST. destruct (up (nodes s k)) as [|m r] eqn:U; [reflexivity|]. exfalso.
  pose proof (kid_neq T N HT WF p k J) as NE. apply isIn_iff in J. rewrite J in ST. cbv zeta in ST.
  assert (up (nodes (setN k (set_up r (nodes s k)) s) k) = r) as E by (rewrite setN_eq; reflexivity).
  destruct (isStop _).
  - apply (f_equal (fun x => up (nodes x k))) in ST. rewrite E, U in ST. apply (cons_ne _ _ ST).
  - destruct (match m with UDisc => _ | _ => _ end) as [y out]. apply (f_equal (fun x => up (nodes x k))) in ST. rewrite sendD_nd in ST. fields. rewrite setN_neq in ST by (intros X; apply NE; symmetry; exact X). rewrite E, U in ST. apply (cons_ne _ _ ST).
Qed.
Lemma settled_fq s c f : settled T N s -> member T N c -> In f (feds N c) -> fst_ (fds s f) <> Fin -> fq (fds s f) = [].
Proof.
  intros ST M J R. specialize (ST (EFed f) I (ex_intro _ c (conj M J))). cbn [Shutdown.step] in ST. destruct (isFin (fst_ (fds s f))) eqn:F; [destruct (fst_ (fds s f)); [discriminate|discriminate|elim R; reflexivity]|].
  destruct (fq (fds s f)) as [|m r] eqn:Q; [reflexivity|]. exfalso.
  destruct m; [destruct (fst_ (fds s f))|..]; apply (f_equal (fun x => fq (fds x f))) in ST; rewrite setF_eq in ST; fields; rewrite Q in ST; apply (cons_ne _ _ ST).
Qed.
Lemma settled_cq s c : settled T N s -> member T N c -> t_core T c = true -> rs (nodes s c) <> Stop -> cq (nodes s c) = [].
Proof.
  intros ST M K R. specialize (ST (ECore c) I M). cbn [Shutdown.step] in ST. apply isStop_not in R. rewrite R, K in ST. cbn [orb negb] in ST.
  destruct (cq (nodes s c)) as [|m r] eqn:Q; [reflexivity|]. exfalso. destruct m as [f|f].
  - apply (f_equal (fun x => cq (nodes x c))) in ST. rewrite sendF_nodes, setN_eq in ST. fields. rewrite Q in ST. apply (cons_ne _ _ ST).
  - assert (cq (fst (coreDisc N c f (set_cq r (nodes s c)))) = r) as E by (unfold coreDisc, check; cbv zeta; destruct (_ && _); destruct (_ || _ || _); reflexivity).
    destruct (coreDisc N c f (set_cq r (nodes s c))) as [y a]. apply (f_equal (fun x => cq (nodes x c))) in ST. rewrite sendF_nodes, setN_eq in ST. fields. rewrite E, Q in ST. apply (cons_ne _ _ ST).
Qed.

(** ** from the root downwards *)
Lemma told_stops s n k : settled T N s -> linv T N s -> member T N n -> In k (kids N n) -> In k (told (nodes s n)) -> rs (nodes s k) = Stop.
Proof.
  intros ST [NV PV] M J TD. pose proof (member_kid T N n k M J) as MK. destruct (PV n k J) as [_ [B _]]. destruct (rs (nodes s k)) eqn:R; [| |reflexivity].
  all: pose proof (settled_dn s k ST MK ltac:(congruence)) as D; rewrite D in B; destruct (B TD) as [[]|[[]|[X|X]]]; [|congruence]; apply (settled_stop s k ST MK) in X; congruence.
Qed.
Lemma root_stops_all s : settled T N s -> linv T N s -> rs (nodes s root) = Stop -> forall n, member T N n -> rs (nodes s n) = Stop.
Proof.
  intros ST L R. induction 1 as [|n k M IH J]; [exact R|]. apply (told_stops s n k ST L M J). destruct L as [NV _]. apply (proj2 (nodeL_left T N n _ (NV n) (or_intror IH)) k J).
Qed.
Lemma stopped_left s n : linv T N s -> rs (nodes s n) = Stop -> left_ T N n (nodes s n).
Proof. intros [NV _] R. apply (nodeL_left T N n _ (NV n) (or_intror R)). Qed.
(** a member of a federation without --global_disconnect which has left is acknowledged *)
Lemma left_stops s : glob N = false -> settled T N s -> linv T N s -> forall n, member T N n -> t_core T n = true \/ kids N n <> [] -> left_ T N n (nodes s n) -> rs (nodes s n) = Stop.
Proof.
  intros GL ST L n M. induction M as [|n k M IH J]; intros NE LE.
  - destruct L as [NV _]. destruct (NV root) as [_ [_ [_ [D _]]]]. destruct NE as [NE|NE]; [rewrite (proj1 (proj2 HT)) in NE; discriminate|].
    destruct (D eq_refl NE LE) as [X|X]; [apply (settled_stop s root ST (member_root T N) X)|exact X].
  - assert (kids N n <> []) as NK by (intros E; rewrite E in J; destruct J).
    assert (rs (nodes s n) = Stop -> rs (nodes s k) = Stop) as G.
    { intros R. apply (told_stops s n k ST L M J). destruct L as [NV _]. apply (proj2 (nodeL_left T N n _ (NV n) (or_intror R)) k J). }
    pose proof L as [NV PV]. destruct (PV n k J) as [_ [_ [C _]]]. rewrite (settled_up s n k ST M J) in C. destruct (C LE NE) as [[]|[X|X]]; [|apply G, X].
    destruct (NV n) as [_ [_ [B _]]]. destruct (B GL k J X) as [Y|[_ Y]]; [apply (told_stops s n k ST L M J Y)|]. apply G, IH; [right; exact NK|exact Y].
Qed.
Lemma waiting B s f : settled T N s -> linv T N s -> finv B s -> member T N (coreOf N f) -> In f (feds N (coreOf N f)) -> called (fds s f) = true -> fst_ (fds s f) <> Fin ->
  In f (gone (nodes s (coreOf N f))) \/ rs (nodes s (coreOf N f)) = Stop.
Proof.
  intros ST L [FA _] M J C NF. destruct (FA f J) as [A1 [A2 _]].
  assert (t_core T (coreOf N f) = true) as K. { destruct (t_core T (coreOf N f)) eqn:E; [reflexivity|]. rewrite (proj1 (proj2 (proj2 WF)) _ E) in J. destruct J. }
  destruct (rs (nodes s (coreOf N f))) eqn:R; [| |right; reflexivity].
  all: rewrite (settled_cq s _ ST M K ltac:(congruence)), (settled_fq s _ f ST M J NF) in *; left; destruct (fst_ (fds s f)) eqn:S; [destruct (A1 C eq_refl) as [[]|X]; elim X; reflexivity|destruct (A2 eq_refl) as [[]|X]; exact X|elim NF; reflexivity].
Qed.
Lemma done_settled s c f : settled T N s -> member T N c -> In f (feds N c) -> done (fds s f) -> fst_ (fds s f) = Fin.
Proof.
  intros ST M J D. destruct (fst_ (fds s f)) eqn:S; [| |reflexivity]. all: unfold done in D; rewrite S in D; rewrite (settled_fq s c f ST M J ltac:(congruence)) in D; destruct D as [D|[[]|[]]]; discriminate.
Qed.

(** C46: without --global_disconnect finalize needs nobody else: when every command has been processed, every call has returned,
    whatever the other federates do *)
Theorem C46_finalize_returns h f c : glob N = false -> noUser h -> settled T N (run T N h) -> member T N c -> In f (feds N c) -> called (fds (run T N h) f) = true ->
  returned (run T N h) f.
Proof.
  intros GL NU ST M J C. set (s := run T N h) in *. assert (fair T h) as FH by (intros n X; elim (NU n X)). pose proof (linv_run T N HT WF h FH) as L. fold s in L. pose proof (finv_run h FH) as FV. fold s in FV.
  pose proof (feds_coreOf c f J) as E. split; [exact C|]. apply (done_settled s c f ST M J).
  assert (t_core T c = true) as K. { destruct (t_core T c) eqn:X; [reflexivity|]. rewrite (proj1 (proj2 (proj2 WF)) _ X) in J. destruct J. }
  assert (fst_ (fds s f) = Fin \/ fst_ (fds s f) <> Fin) as [X|NF] by (destruct (fst_ (fds s f)); [right; discriminate|right; discriminate|left; reflexivity]); [left; exact X|].
  pose proof FV as [FA _]. specialize (FA f ltac:(rewrite E; exact J)). rewrite E in FA. destruct FA as [A1 [A2 [A3 [A4 A5]]]].
  destruct (rs (nodes s c)) eqn:R.
  - pose proof (waiting _ s f ST L FV ltac:(rewrite ?E, ?EC; assumption) ltac:(rewrite E; exact J) C NF) as W. rewrite E, R in W. destruct W as [W|W]; [|discriminate]. apply (A5 GL W eq_refl).
  - assert (rs (nodes s c) = Stop) as X by (apply (left_stops s GL ST L c M (or_introl K)); apply left_core; [exact K|congruence]). congruence.
  - apply (A4 NU); [right; reflexivity|exact C].
Qed.

(** every broker has a child, every core a federate; the tree has finite depth *)
Definition populated (D : nat) : Prop := forall n, member T N n -> t_depth T n <= D /\ if t_core T n then feds N n <> [] else kids N n <> [].

(** C46: when every federate has called finalize and every command has been processed, every core and broker has stopped *)
Theorem C46_shutdown_completes h D : fair T h -> populated D -> settled T N (run T N h) ->
  (forall c f, member T N c -> In f (feds N c) -> called (fds (run T N h) f) = true) ->
  (forall n, member T N n -> rs (nodes (run T N h) n) = Stop) /\
  (noUser h -> forall c f, member T N c -> In f (feds N c) -> returned (run T N h) f).
Proof.
  intros FH PO ST CA. set (s := run T N h) in *. pose proof (linv_run T N HT WF h FH) as L. fold s in L. pose proof (finv_run h FH) as FV. fold s in FV.
  assert (forall n, member T N n -> t_core T n = true \/ kids N n <> []) as NE by (intros n M; destruct (PO n M) as [_ X]; destruct (t_core T n); [left; reflexivity|right; exact X]).
  (* upwards *)
  assert (forall m n, member T N n -> D - t_depth T n < m -> left_ T N n (nodes s n)) as UPW.
  { induction m as [|m IH]; intros n M LT; [lia|]. destruct (t_core T n) eqn:K.
    - unfold left_. rewrite K. intros R. pose proof L as [NV _]. destruct (NV n) as [_ [_ [_ [_ [E _]]]]]. destruct (PO n M) as [_ NF]. rewrite K in NF. destruct (E K R) as [X|X]; [contradiction|].
      assert (exists f, In f (feds N n) /\ ~ In f (gone (nodes s n))) as [f [J NG]].
      { unfold allFeds in X. clear NF E. induction (feds N n) as [|f l IHl]; [discriminate|]. cbn in X. destruct (isIn f (gone (nodes s n))) eqn:Y.
        - destruct (IHl X) as [g [G1 G2]]. exists g. split; [right; exact G1|exact G2].
        - exists f. split; [left; reflexivity|]. intros Z. apply isIn_iff in Z. congruence. }
      pose proof (feds_coreOf n f J) as EC. pose proof FV as [FA _]. specialize (FA f ltac:(rewrite EC; exact J)). rewrite EC in FA. destruct FA as [_ [_ [A3 _]]].
      assert (fst_ (fds s f) = Fin \/ fst_ (fds s f) <> Fin) as [X'|NF'] by (destruct (fst_ (fds s f)); [right; discriminate|right; discriminate|left; reflexivity]).
      + destruct (A3 (or_introl X')); [contradiction|congruence].
      + pose proof (waiting _ s f ST L FV ltac:(rewrite ?E, ?EC; assumption) ltac:(rewrite EC; exact J) (CA n f M J) NF') as W. rewrite EC in W. destruct W; [contradiction|congruence].
    - assert (rs (nodes s n) = Stop \/ rs (nodes s n) <> Stop) as [R|R] by (destruct (rs (nodes s n)); [right; discriminate|right; discriminate|left; reflexivity]); [apply (stopped_left s n L R)|].
      unfold left_. rewrite K. intros k J. pose proof L as [NV PV]. destruct (PV n k J) as [_ [_ [C _]]]. rewrite (settled_up s n k ST M J) in C.
      assert (member T N k) as MK by (apply (member_kid T N n k M J)). pose proof (proj1 (PO k MK)) as DK. pose proof (proj1 (PO n M)) as DN.
      pose proof (proj1 WF n k J) as PK. destruct HT as [_ [_ [_ HD]]]. destruct (HD k n PK) as [_ DE].
      assert (left_ T N k (nodes s k)) as LK by (apply IH; [exact MK|lia]).
      destruct (C LK (NE k MK)) as [[]|[X|X]]; [exact X|contradiction]. }
  assert (rs (nodes s root) = Stop) as RS.
  { pose proof (UPW (S D) root (member_root T N) ltac:(lia)) as LR. destruct L as [NV _]. destruct (NV root) as [_ [_ [_ [Q _]]]].
    destruct (NE root (member_root T N)) as [X|X]; [rewrite (proj1 (proj2 HT)) in X; discriminate|]. destruct (Q eq_refl X LR) as [Y|Y]; [apply (settled_stop s root ST (member_root T N) Y)|exact Y]. }
  pose proof (root_stops_all s ST L RS) as ALL. split; [exact ALL|].
  intros NU c f M J. split; [apply (CA c f M J)|]. apply (done_settled s c f ST M J). pose proof (feds_coreOf c f J) as E. destruct FV as [FA _]. specialize (FA f ltac:(rewrite E; exact J)). rewrite E in FA.
  destruct FA as [_ [_ [_ [A4 _]]]]. apply (A4 NU); [right; apply ALL, M|apply (CA c f M J)].
Qed.

(** C46: disconnect() on the root stops every core and broker *)
Lemma user_root h : In (EUser root) h -> stopping (nodes (run T N h) root) = true \/ rs (nodes (run T N h) root) = Stop.
Proof.
  induction h as [|e h IH] using rev_ind; intros J; [destruct J|]. unfold run. rewrite fold_left_app. cbn [fold_left]. change (fold_left (Shutdown.step T N) h gs0) with (run T N h).
  set (s := run T N h) in *. apply in_app_iff in J as [J|[->|[]]].
  - specialize (IH J). clear J.
    assert (forall n y s', nodes s' = nodes (setN n y s) -> (n = root -> stopping y = true \/ rs y = Stop) -> stopping (nodes s' root) = true \/ rs (nodes s' root) = Stop) as ONE.
    { intros n y s' E H. rewrite E. destruct (Nat.eq_dec root n) as [<-|NE]; [rewrite setN_eq; apply H; reflexivity|rewrite setN_neq by exact NE; exact IH]. }
    assert (forall n y out s', nodes s' = nodes (sendD out (setN n y s)) -> (n = root -> stopping y = true \/ rs y = Stop) -> stopping (nodes s' root) = true \/ rs (nodes s' root) = Stop) as OND.
    { intros n y out s' E H. rewrite E, sendD_nd. fields. apply (ONE n y (setN n y s) eq_refl H). }
    destruct e as [f|f|c|k|n|n|c|n|n]; cbn [Shutdown.step].
    + destruct (_ || _); [exact IH|]. destruct (isRun _).
      * eapply ONE; [rewrite setF_nodes; reflexivity|]. intros E. fields. rewrite E. exact IH.
      * eapply ONE; [rewrite setF_nodes; reflexivity|]. intros _. left. reflexivity.
    + destruct (isFin _); [exact IH|]. destruct (fq _) as [|[| |] r]; try exact IH. destruct (fst_ _); try exact IH. eapply ONE; [rewrite setF_nodes; reflexivity|]. intros E. fields. rewrite E. exact IH.
    + destruct (_ || _); [exact IH|]. destruct (cq (nodes s c)) as [|[f|f] r]; [exact IH| |].
      * eapply ONE; [rewrite sendF_nodes; reflexivity|]. intros ->. exact IH.
      * destruct (coreDisc _ _ _ _) as [y a] eqn:E. eapply ONE; [rewrite sendF_nodes; reflexivity|]. intros ->. revert E. unfold coreDisc, check. cbv zeta. fields.
        destruct (isRun (rs (nodes s root)) && _) eqn:RR; [apply andb_true_iff in RR as [RR _]; apply isRun_iff in RR|]; destruct (_ || _ || _); intros E; injection E as <- _; fields; try exact IH;
        (destruct IH as [IH|IH]; [left; exact IH|congruence]).
    + destruct (t_parent T k) as [p|] eqn:PP; [|exact IH]. destruct (up (nodes s k)) as [|m r]; [exact IH|]. destruct (isIn k (kids N p)); [|exact IH]. cbv zeta.
      assert (root <> k) as NK by (intros <-; rewrite (proj1 HT) in PP; discriminate). destruct (isStop _); [rewrite setN_neq by exact NK; exact IH|].
      rewrite (setN_neq k _ s p (parent_neq T HT k p PP)).
      assert (forall y out, (y, out) = (match m with UDisc => brokerDisc T N p k (nodes s p) | _ => brokerPass T N p m (nodes s p) end) -> rs y = rs (nodes s p) /\ (stopping (nodes s p) = true -> stopping y = true)) as SH.
      { intros y out E. destruct m.
        - unfold brokerDisc in E. cbv zeta in E. destruct (allKids N p _).
          + destruct (p =? root); [destruct (glob N)|]; injection E as -> _; fields; (split; [reflexivity|]); intros X; try reflexivity; exact X.
          + destruct (glob N); destruct (_ && _); injection E as -> _; (split; [reflexivity|]); intros X; exact X.
        - unfold brokerPass in E. destruct (p =? root); injection E as -> _; (split; [reflexivity|]); intros X; exact X.
        - unfold brokerPass in E. destruct (p =? root); injection E as -> _; (split; [reflexivity|]); intros X; exact X. }
      destruct (match m with UDisc => _ | _ => _ end) as [y out]. destruct (SH y out eq_refl) as [Y1 Y2]. rewrite sendD_nd. fields.
      destruct (Nat.eq_dec root p) as [<-|NE]; [rewrite setN_eq, Y1; destruct IH; auto|rewrite !setN_neq by assumption; exact IH].
    + destruct (isStop _); [exact IH|]. destruct (dn (nodes s n)) as [|m r]; [exact IH|]. cbv zeta. destruct (t_core T n) eqn:K; destruct m.
      * eapply ONE; [rewrite sendF_nodes; reflexivity|]. intros _. left. reflexivity.
      * destruct (coreGlobal _) as [y a] eqn:E. eapply ONE; [rewrite sendF_nodes; reflexivity|]. intros _. left. unfold coreGlobal in E. destruct (isRun _); injection E as <- _; reflexivity.
      * eapply ONE; [reflexivity|]. intros ->. rewrite (proj1 (proj2 HT)) in K. discriminate.
      * eapply OND; [reflexivity|]. intros _. left. reflexivity.
      * eapply OND; [reflexivity|]. intros _. left. reflexivity.
      * eapply OND; [reflexivity|]. intros ->. exact IH.
    + destruct (_ && _); [|exact IH]. destruct (t_core T n).
      * destruct (coreStop _) as [y a] eqn:E. eapply ONE; [rewrite sendF_nodes; reflexivity|]. intros _. right. unfold coreStop in E. destruct (isRun _); injection E as <- _; reflexivity.
      * eapply ONE; [reflexivity|]. intros _. right. reflexivity.
    + destruct (_ && _ && _); [|exact IH]. eapply ONE; [rewrite sendF_nodes; reflexivity|]. intros _. left. reflexivity.
    + eapply ONE; [reflexivity|]. intros ->. exact IH.
    + destruct (isStop _); [exact IH|]. destruct (t_core T n).
      * destruct (coreGlobal _) as [y a] eqn:E. eapply ONE; [rewrite sendF_nodes; reflexivity|]. intros _. left. unfold coreGlobal in E. destruct (isRun _); injection E as <- _; reflexivity.
      * destruct (brokerGlobal _ _ _) as [y out] eqn:E. eapply OND; [reflexivity|]. intros _. left. injection E as <- _. reflexivity.
  - cbn [Shutdown.step]. destruct (isStop (rs (nodes s root))) eqn:R; [right; apply isStop_iff, R|]. rewrite (proj1 (proj2 HT)). cbn [brokerGlobal]. rewrite sendD_nd, setN_eq. left. reflexivity.
Qed.
Theorem C46_root_disconnect_stops_everything h : fair T h -> In (EUser root) h -> settled T N (run T N h) -> forall n, member T N n -> rs (nodes (run T N h) n) = Stop.
Proof.
  intros FH J ST. apply root_stops_all; [exact ST|apply (linv_run T N HT WF h FH)|]. destruct (user_root h J) as [X|X]; [apply (settled_stop _ root ST (member_root T N) X)|exact X].
Qed.
End End_.
