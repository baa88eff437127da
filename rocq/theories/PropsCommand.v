(** * C52: a command reaches the federate it is sent to, once and in order *)
From Coq Require Import String Ascii ZArith Bool List Lia.
From Verif Require Import Route RouteInv PropsRoute PropsDeliver Command.
Import ListNotations.
Open Scope list_scope.

Section Flow.
Variable T : topology.
Variable owner : string -> option nat.
Variable route : nat -> string -> option nat.
Notation root := (t_root T).
Notation par := (t_parent T).
Notation qstep := (qstep T owner route).
Notation qrun := (qrun T owner route).
Notation does := (does T owner route).
Notation attend := (attend T owner route).
Hypothesis HT : tree T.
(** the federates are at cores, and a broker knows the federates below it and the way to them (C44) *)
Hypothesis HO : forall n K, owner n = Some K -> t_core T K = true.
Hypothesis HR : forall x n c, route x n = Some c <-> exists K, owner n = Some K /\ par c = Some x /\ below T c K.

Lemma qrun_snoc es e : qrun (es ++ [e]) = qstep (qrun es) e.
Proof. unfold Command.qrun. rewrite fold_left_app. reflexivity. Qed.
(** where a node sends what is for a name *)
Definition nxt (n : string) (x : nat) : hop :=
  let u := match par x with Some p => Next p | None => Lost end in
  if t_core T x then match owner n with Some K => if Nat.eqb K x then Here else u | None => u end
  else match route x n with Some k => Next k | None => if Nat.eqb x root then Here else u end.
Lemma does_nxt x c s : does x c s = match nxt (c_target c) x with Next z => putOn x z c s | Here => if t_core T x then hand (c_target c) c s else set_q_lost (q_lost s ++ [c]) s | Lost => s end.
Proof.
  unfold Command.does, nxt, coreCmd, brokerCmd, up. destruct (t_core T x).
  - destruct (owner (c_target c)) as [K|]; [destruct (Nat.eqb K x); [reflexivity|]|]; destruct (par x); reflexivity.
  - destruct (route x (c_target c)); [reflexivity|]. destruct (Nat.eqb x root); [reflexivity|]. destruct (par x); reflexivity.
Qed.
(** ** the way *)
Lemma core_par K : t_core T K = true -> exists p, par K = Some p.
Proof. intros C. apply (has_parent T HT). intros ->. destruct HT as (_ & Q & _). congruence. Qed.
Lemma way_down n K : owner n = Some K -> forall x, below T x K -> exists l, way (nxt n) K x l.
Proof.
  intros O. assert (G : forall d x, below T x K -> (t_depth T K - t_depth T x <= d)%nat -> exists l, way (nxt n) K x l).
  { induction d as [|d IH]; intros x B D; pose proof (below_depth T HT _ _ B) as [L E].
    - assert (x = K) by (apply E; lia). subst x. exists []. constructor. unfold nxt. rewrite (HO _ _ O), O, Nat.eqb_refl. reflexivity.
    - destruct (Nat.eq_dec x K) as [->|N]; [exists []; constructor; unfold nxt; rewrite (HO _ _ O), O, Nat.eqb_refl; reflexivity|].
      destruct (below_above T x K B N) as (c & P & BC). pose proof (parent_depth T HT _ _ P). pose proof (below_depth T HT _ _ BC) as [L2 _]. destruct (IH c BC ltac:(lia)) as [l W]. exists ((x, c) :: l). apply (way_next _ _ x c l); [|exact W].
      unfold nxt. destruct HT as (_ & _ & _ & Z). destruct (Z c x P) as [CX _]. rewrite CX. rewrite (proj2 (HR x n c)); [reflexivity|]. exists K. auto. }
  intros x B. apply (G _ x B (le_n _)).
Qed.
Lemma way_known n K : owner n = Some K -> forall x, exists l, way (nxt n) K x l.
Proof.
  intros O. assert (G : forall d x, (t_depth T x <= d)%nat -> exists l, way (nxt n) K x l).
  { assert (RR : exists l, way (nxt n) K root l) by (apply (way_down n K O), (below_root T HT)).
    induction d as [|d IH]; intros x D.
    - assert (x = root). { pose proof (below_depth T HT _ _ (below_root T HT x)) as [L E]. symmetry. apply E. lia. } subst x. exact RR.
    - destruct (above_dec T HT x K) as [(c & P & B)|NA]; [apply (way_down n K O); apply (below_trans T x c); [apply (below_up T _ c x P); constructor|exact B]|].
      destruct (Nat.eq_dec x K) as [->|N]; [exists []; constructor; unfold nxt; rewrite (HO _ _ O), O, Nat.eqb_refl; reflexivity|]. destruct (Nat.eq_dec x root) as [->|NR]; [exact RR|].
      destruct (has_parent T HT x NR) as [p P]. pose proof (parent_depth T HT _ _ P). destruct (IH p ltac:(lia)) as [l W]. exists ((x, p) :: l). apply (way_next _ _ x p l); [|exact W]. unfold nxt. rewrite P, O. rewrite (proj2 (Nat.eqb_neq K x)) by congruence. destruct (t_core T x); [reflexivity|].
      destruct (route x n) as [c|] eqn:Q; [apply HR in Q as (K' & O' & P' & B'); destruct NA; exists c; split; [exact P'|]; congruence|]. rewrite (proj2 (Nat.eqb_neq x root)) by exact NR. reflexivity. }
  intros x. apply (G _ x (le_n _)).
Qed.
Lemma way_unknown n : owner n = None -> forall x, exists l, way (nxt n) root x l.
Proof.
  intros O. assert (NX : forall x, nxt n x = if Nat.eqb x root then Here else match par x with Some p => Next p | None => Lost end).
  { intros x. unfold nxt. rewrite O. destruct (t_core T x) eqn:C.
    - destruct (Nat.eqb_spec x root) as [->|N]; [|reflexivity]. destruct HT as (_ & Q & _). congruence.
    - destruct (route x n) as [c|] eqn:Q; [apply HR in Q as (K' & O' & _); congruence|reflexivity]. }
  assert (G : forall d x, (t_depth T x <= d)%nat -> exists l, way (nxt n) root x l).
  { induction d as [|d IH]; intros x D; (destruct (Nat.eq_dec x root) as [->|NR]; [exists []; constructor; rewrite NX, Nat.eqb_refl; reflexivity|]); destruct (has_parent T HT x NR) as [p P]; pose proof (parent_depth T HT _ _ P); [lia|].
    destruct (IH p ltac:(lia)) as [l W]. exists ((x, p) :: l). apply (way_next _ _ x p l); [|exact W]. rewrite NX, P. rewrite (proj2 (Nat.eqb_neq x root)) by exact NR. reflexivity. }
  intros x. apply (G _ x (le_n _)).
Qed.
(** the node at which the way of a name ends *)
Definition goal (n : string) : nat := match owner n with Some K => K | None => root end.
Lemma way_any n x : exists l, way (nxt n) (goal n) x l.
Proof. unfold goal. destruct (owner n) as [K|] eqn:O; [apply way_known, O|apply way_unknown, O]. Qed.
Lemma goal_core n : t_core T (goal n) = match owner n with Some _ => true | None => false end.
Proof. unfold goal. destruct (owner n) as [K|] eqn:O; [apply (HO _ _ O)|]. apply HT. Qed.

(** ** one stream: the commands of one mode from one core to one name *)
Section Stream.
Variable K0 : nat.
Variable n : string.
Variable m : bool.
Definition keep (c : cmd) : bool := Nat.eqb (c_core c) K0 && (String.eqb (c_target c) n && Bool.eqb (c_fast c) m).
Lemma keep_facts c : keep c = true -> c_core c = K0 /\ c_target c = n /\ c_fast c = m.
Proof. unfold keep. intros H. apply andb_true_iff in H as [A H]. apply andb_true_iff in H as [B C]. apply Nat.eqb_eq in A. apply String.eqb_eq in B. apply eqb_prop in C. auto. Qed.
Definition ends (s : qsys) : list cmd := match owner n with Some _ => q_arrived s n | None => q_lost s end.
Definition F (s : qsys) (m' : bool) (e : nat * nat) : list cmd := filter keep (q_links s m' (fst e) (snd e)).
Fixpoint cont (s : qsys) (E : list (nat * nat)) : list cmd := match E with [] => [] | e :: r => cont s r ++ F s m e end.
Lemma cont_app s a b : cont s (a ++ b) = cont s b ++ cont s a.
Proof. induction a as [|e a IH]; [cbn; rewrite app_nil_r; reflexivity|]. cbn. rewrite IH, app_assoc. reflexivity. Qed.
Lemma cont_ext s s' E : (forall e, In e E -> F s' m e = F s m e) -> cont s' E = cont s E.
Proof. induction E as [|e E IH]; intros H; [reflexivity|]. cbn. rewrite H by (left; reflexivity). rewrite IH; [reflexivity|]. intros e' I. apply H. right. exact I. Qed.
Definition J (E : list (nat * nat)) (s : qsys) : Prop :=
  filter keep (ends s) ++ cont s E = filter keep (q_sent s)
  /\ (forall m' e, m' = negb m \/ ~ In e E -> F s m' e = []) /\ (forall m' x y c, In c (q_links s m' x y) -> c_fast c = m').
Lemma F_put s x y c m' e : c_fast c = m' \/ keep c = false -> F (putOn x y c s) m' e = F s m' e ++ (if edge_dec e (x, y) then (if keep c then if Bool.eqb m' m then [c] else [] else []) else []).
Proof.
  intros CF. unfold F. cbn. destruct e as [a b]. cbn [fst snd]. destruct (edge_dec (a, b) (x, y)) as [E|E].
  - injection E as -> ->. rewrite !Nat.eqb_refl. cbn [andb]. rewrite andb_true_r. destruct (Bool.eqb m' (c_fast c)) eqn:Q.
    + rewrite filter_app. f_equal. cbn. destruct (keep c) eqn:KC; [|reflexivity]. apply eqb_prop in Q. destruct (keep_facts c KC) as (_ & _ & M). replace (Bool.eqb m' m) with true by (symmetry; apply eqb_true_iff; congruence). reflexivity.
    + destruct (keep c) eqn:KC; [|rewrite app_nil_r; reflexivity]. destruct CF as [CF|CF]; [|discriminate]. rewrite <- CF in Q. destruct (c_fast c); discriminate.
  - rewrite (edge_neq _ _ _ _ E), andb_false_r, app_nil_r. reflexivity.
Qed.
Lemma J_same E s s' : q_links s' = q_links s -> q_sent s' = q_sent s -> filter keep (ends s') = filter keep (ends s) -> J E s -> J E s'.
Proof.
  intros Q1 Q2 Q3 (J1 & J2 & J3). assert (FF : forall m'' e, F s' m'' e = F s m'' e) by (intros; unfold F; rewrite Q1; reflexivity). split; [|split; [intros m'' e H; rewrite FF; apply J2, H|rewrite Q1; exact J3]].
  rewrite Q2, Q3, (cont_ext s) by (intros; apply FF). exact J1.
Qed.
(** a command which is not of the stream *)
Lemma J_other E x c s : keep c = false -> J E s -> J E (does x c s).
Proof.
  intros KC JJ. pose proof JJ as (J1 & J2 & J3). rewrite does_nxt. destruct (nxt (c_target c) x) as [|z|]; [|split; [|split]|exact JJ].
  - destruct (t_core T x).
    + assert (EN : filter keep (match owner n with Some _ => at_ (c_target c) (q_arrived s (c_target c) ++ [c]) (q_arrived s) n | None => q_lost s end) = filter keep (ends s)).
      { unfold ends. destruct (owner n); [|reflexivity]. unfold at_. destruct (String.eqb_spec n (c_target c)) as [->|N]; [|reflexivity]. rewrite filter_app. cbn. rewrite KC. apply app_nil_r. }
      unfold hand. destruct (reserved (c_text c)); apply (J_same E s); try reflexivity; try exact EN; exact JJ.
    + apply (J_same E s); try reflexivity; [|exact JJ]. unfold ends. cbn. destruct (owner n); [reflexivity|]. rewrite filter_app. cbn. rewrite KC. apply app_nil_r.
  - rewrite (cont_ext s); [exact J1|]. intros e _. rewrite F_put by (right; exact KC). rewrite KC. destruct (edge_dec e (x, z)); apply app_nil_r.
  - intros m' e H. rewrite F_put by (right; exact KC). rewrite (J2 m' e H), KC. destruct (edge_dec e (x, z)); reflexivity.
  - intros m' a b c' I. cbn in I. destruct (Bool.eqb m' (c_fast c) && (Nat.eqb a x && Nat.eqb b z)) eqn:Q; [|apply (J3 m' a b c' I)]. apply in_app_or in I as [I|[I|[]]]; [apply (J3 m' a b c' I)|subst c']. apply andb_true_iff in Q as [Q _]. apply eqb_prop in Q. congruence.
Qed.
Definition popped (m' : bool) (x y : nat) (r : list cmd) (s : qsys) : qsys := set_q_links (fun m'' a b => if Bool.eqb m'' m' && (Nat.eqb a x && Nat.eqb b y) then r else q_links s m'' a b) s.
Lemma attend_none m' x y s : q_links s m' x y = [] -> attend m' x y s = s.
Proof. unfold Command.attend. intros ->. reflexivity. Qed.
Lemma attend_some m' x y c r s : q_links s m' x y = c :: r -> attend m' x y s = does y c (popped m' x y r s).
Proof. unfold Command.attend. intros ->. reflexivity. Qed.
Lemma F_popped m' x y r s m'' e : F (popped m' x y r s) m'' e = if Bool.eqb m'' m' then (if edge_dec e (x, y) then filter keep r else F s m'' e) else F s m'' e.
Proof.
  unfold F. destruct e as [a b]. cbn [fst snd q_links popped set_q_links]. destruct (Bool.eqb m'' m'); [|reflexivity]. cbn [andb]. destruct (edge_dec (a, b) (x, y)) as [E|E]; [injection E as -> ->; rewrite !Nat.eqb_refl; reflexivity|]. rewrite (edge_neq _ _ _ _ E). reflexivity.
Qed.
Lemma popped_fast m' x y c r s : q_links s m' x y = c :: r -> (forall m' x y c, In c (q_links s m' x y) -> c_fast c = m') -> forall m'' a b c', In c' (q_links (popped m' x y r s) m'' a b) -> c_fast c' = m''.
Proof.
  intros L H m'' a b c' I. cbn in I. destruct (Bool.eqb m'' m' && (Nat.eqb a x && Nat.eqb b y)) eqn:Q; [|apply (H _ _ _ _ I)]. apply andb_true_iff in Q as [Q1 Q2]. apply eqb_prop in Q1. apply edge_eqb in Q2. injection Q2 as -> ->. subst m''. apply (H m' x y). rewrite L. right. exact I.
Qed.
Lemma stream_nodup l : way (nxt n) (goal n) K0 l -> NoDup ((K0, K0) :: l).
Proof.
  intros W. destruct (way_nodup _ _ _ _ W) as [N1 N2]. constructor; [|exact N1]. intros I. apply N2. apply in_map_iff. exists (K0, K0). auto.
Qed.
Lemma stream_next l a x y b : way (nxt n) (goal n) K0 l -> (K0, K0) :: l = a ++ (x, y) :: b -> way (nxt n) (goal n) y b.
Proof.
  intros W E. destruct a as [|e a]; [injection E as <- <- <-; exact W|]. injection E as _ E. apply (way_split _ _ _ _ _ _ _ _ W E).
Qed.
Lemma J_serve l m' x y s : way (nxt n) (goal n) K0 l -> J ((K0, K0) :: l) s -> J ((K0, K0) :: l) (attend m' x y s).
Proof.
  intros W JJ. set (E := (K0, K0) :: l) in *. destruct (q_links s m' x y) as [|c r] eqn:L; [rewrite (attend_none _ _ _ _ L); exact JJ|]. rewrite (attend_some _ _ _ _ _ _ L). pose proof JJ as (J1 & J2 & J3).
  assert (FX : F s m' (x, y) = (if keep c then [c] else []) ++ filter keep r) by (unfold F; cbn [fst snd]; rewrite L; cbn; destruct (keep c); reflexivity).
  assert (CF : c_fast c = m') by (apply (J3 m' x y); rewrite L; left; reflexivity).
  destruct (keep c) eqn:KC.
  2:{ apply J_other; [exact KC|]. assert (SAME : forall m'' e, F (popped m' x y r s) m'' e = F s m'' e). { intros m'' e. rewrite F_popped. destruct (Bool.eqb m'' m') eqn:Q; [|reflexivity]. destruct (edge_dec e (x, y)) as [->|N]; [|reflexivity]. apply eqb_prop in Q. subst m''. rewrite FX. reflexivity. }
      split; [rewrite (cont_ext s) by (intros; apply SAME); exact J1|]. split; [intros m'' e H; rewrite SAME; apply J2, H|apply (popped_fast _ _ _ _ _ _ L J3)]. }
  destruct (keep_facts c KC) as (C1 & C2 & C3). assert (QM : m' = m) by congruence. clear CF. subst m'.
  assert (IE : In (x, y) E). { destruct (in_dec edge_dec (x, y) E) as [I|I]; [exact I|]. exfalso. pose proof (J2 m (x, y) (or_intror I)) as Q. rewrite FX in Q. discriminate. }
  apply in_split in IE as (a & b & EQ). pose proof (stream_next l a x y b W EQ) as WY. pose proof (stream_nodup l W) as ND. fold E in ND. rewrite EQ in ND. pose proof (NoDup_remove_2 _ _ _ ND) as NI.
  assert (NA : ~ In (x, y) a) by (intros I; apply NI, in_or_app; auto). assert (NB : ~ In (x, y) b) by (intros I; apply NI, in_or_app; auto).
  set (s0 := popped m x y r s).
  assert (FS : forall m'' e, e <> (x, y) -> F s0 m'' e = F s m'' e). { intros m'' e N. unfold s0. rewrite F_popped. destruct (edge_dec e (x, y)); [contradiction|]. destruct (Bool.eqb m'' m); reflexivity. }
  assert (F0 : F s0 m (x, y) = filter keep r) by (unfold s0; rewrite F_popped, eqb_reflx; destruct (edge_dec (x, y) (x, y)); [reflexivity|congruence]).
  assert (CA : cont s0 a = cont s a) by (apply cont_ext; intros e I; apply FS; intros ->; contradiction). assert (CB : cont s0 b = cont s b) by (apply cont_ext; intros e I; apply FS; intros ->; contradiction).
  rewrite EQ, cont_app in J1. cbn [cont] in J1. rewrite FX in J1. cbn [app] in J1.
  assert (OUT : forall m'' e, m'' = negb m \/ ~ In e E -> F s0 m'' e = []). { intros m'' e H. destruct (edge_dec e (x, y)) as [->|N]; [|rewrite FS by exact N; apply J2, H]. destruct H as [H|H]; [|exfalso; apply H; rewrite EQ; apply in_or_app; right; left; reflexivity]. subst m''. unfold s0. rewrite F_popped. rewrite eqb_negb1. apply J2. left. reflexivity. }
  assert (FAST := popped_fast m x y c r s L J3). fold s0 in FAST. change (q_sent s) with (q_sent s0) in J1. assert (EN : ends s = ends s0) by reflexivity. rewrite EN in J1. clear EN.
  rewrite does_nxt, C2. destruct (way_inv _ _ _ _ WY) as [(Y1 & Y2 & Y3)|(z & b' & Y1 & Y2 & Y3)].
  - subst y b. rewrite Y3, goal_core. cbn [cont] in *. rewrite app_nil_l in J1.
    assert (DONE : forall s1, q_links s1 = q_links s0 -> q_sent s1 = q_sent s0 -> ends s1 = ends s0 ++ [c] -> J E s1).
    { intros s1 Q1 Q2 Q3. assert (FF : forall m'' e, F s1 m'' e = F s0 m'' e) by (intros; unfold F; rewrite Q1; reflexivity). split; [|split; [intros m'' e H; rewrite FF; apply OUT, H|rewrite Q1; exact FAST]].
      rewrite EQ, cont_app. cbn [cont]. rewrite FF, F0, Q2, Q3, filter_app. cbn [filter]. rewrite KC. rewrite (cont_ext s0 s1 a) by (intros; apply FF). rewrite CA, <- J1. rewrite <- !app_assoc. reflexivity. }
    unfold ends in DONE. destruct (owner n) eqn:O.
    + unfold hand. destruct (reserved (c_text c)); apply DONE; try reflexivity; cbn; unfold at_; rewrite String.eqb_refl; reflexivity.
    + apply DONE; reflexivity.
  - rewrite Y2. subst b. assert (NE : (y, z) <> (x, y)) by (intros Q; apply NB; left; exact Q).
    assert (FP : forall m'' e, F (putOn y z c s0) m'' e = F s0 m'' e ++ (if edge_dec e (y, z) then if Bool.eqb m'' m then [c] else [] else [])).
    { intros m'' e. destruct (bool_dec (c_fast c) m'') as [Q|Q]; [rewrite F_put by auto; rewrite KC; reflexivity|]. unfold F. destruct e as [u v]. cbn. destruct (Bool.eqb m'' (c_fast c)) eqn:Q'; [apply eqb_prop in Q'; congruence|]. cbn. replace (Bool.eqb m'' m) with false by (symmetry; rewrite <- C3; exact Q'). destruct (edge_dec (u, v) (y, z)); rewrite app_nil_r; reflexivity. }
    assert (NB' : ~ In (y, z) a /\ ~ In (y, z) b'). { rewrite app_comm_cons, app_assoc in ND || idtac. split; intros I; [|]. - apply in_split in I as (a1 & a2 & ->). rewrite <- app_assoc in ND. cbn in ND. apply NoDup_remove_2 in ND. apply ND. rewrite !in_app_iff. cbn. auto. - apply NoDup_remove_1 in ND. apply nodup_right in ND. inversion ND. contradiction. }
    split; [|split].
    + rewrite EQ, cont_app. cbn [cont]. rewrite !FP, eqb_reflx. destruct (edge_dec (y, z) (y, z)) as [_|Q]; [|congruence]. destruct (edge_dec (x, y) (y, z)) as [Q|_]; [congruence|]. rewrite app_nil_r, F0.
      rewrite (cont_ext s0 (putOn y z c s0) a), (cont_ext s0 (putOn y z c s0) b'); [|intros e I; rewrite FP; destruct (edge_dec e (y, z)) as [->|_]; [destruct NB'; contradiction|apply app_nil_r]|intros e I; rewrite FP; destruct (edge_dec e (y, z)) as [->|_]; [destruct NB'; contradiction|apply app_nil_r]].
      change (ends (putOn y z c s0)) with (ends s0). change (q_sent (putOn y z c s0)) with (q_sent s0). rewrite <- J1. cbn [cont] in CB. rewrite FS in CB by exact NE. cbn [cont]. rewrite CA. assert (CB' : cont s0 b' = cont s b') by (apply cont_ext; intros e I; apply FS; intros ->; apply NB; right; exact I). rewrite CB', (FS m (y, z) NE). rewrite <- !app_assoc. reflexivity.
    + intros m'' e H. rewrite FP, (OUT m'' e H). destruct (edge_dec e (y, z)) as [->|_]; [|reflexivity]. destruct H as [->|H]; [rewrite eqb_negb1; reflexivity|]. exfalso. apply H. rewrite EQ. apply in_or_app. right. right. left. reflexivity.
    + intros m'' u v c' I. cbn in I. destruct (Bool.eqb m'' (c_fast c) && (Nat.eqb u y && Nat.eqb v z)) eqn:Q; [|apply (FAST m'' u v c' I)]. apply in_app_or in I as [I|[I|[]]]; [apply (FAST m'' u v c' I)|subst c']. apply andb_true_iff in Q as [Q _]. apply eqb_prop in Q. congruence.
Qed.
Lemma J_send l K src target fast text s : J ((K0, K0) :: l) s -> NoDup ((K0, K0) :: l) -> J ((K0, K0) :: l) (sendCommand K src target fast text s).
Proof.
  intros (J1 & J2 & J3) ND. unfold sendCommand. destruct (String.eqb text "flush"); [split; [|split]; assumption|]. set (c := mkC _ K src target fast text). set (E := (K0, K0) :: l) in *. cbv zeta.
  assert (FF : forall s1 v m'' e, F (set_q_sent v s1) m'' e = F s1 m'' e) by reflexivity.
  assert (CC : forall s1 v E', cont (set_q_sent v s1) E' = cont s1 E') by (intros s1 v E'; apply cont_ext; reflexivity).
  assert (J3' : forall m' x y c', In c' (q_links (putOn K K c s) m' x y) -> c_fast c' = m'). { intros m'' u v c' I. cbn in I. destruct (Bool.eqb m'' fast && (Nat.eqb u K && Nat.eqb v K)) eqn:Q; [|apply (J3 m'' u v c' I)]. apply in_app_or in I as [I|[I|[]]]; [apply (J3 m'' u v c' I)|subst c']. apply andb_true_iff in Q as [Q _]. apply eqb_prop in Q. cbn. congruence. }
  assert (FP : forall m'' e, F (putOn K K c s) m'' e = F s m'' e ++ (if edge_dec e (K, K) then (if keep c then if Bool.eqb m'' m then [c] else [] else []) else [])).
  { intros m'' e. destruct (keep c) eqn:KC; [|rewrite F_put by auto; rewrite KC; reflexivity]. destruct (bool_dec (c_fast c) m'') as [Q|Q]; [rewrite F_put by auto; rewrite KC; reflexivity|]. destruct (keep_facts c KC) as (_ & _ & C3). unfold F. destruct e as [u v]. cbn [fst snd q_links putOn set_q_links]. destruct (Bool.eqb m'' (c_fast c)) eqn:Q'; [apply eqb_prop in Q'; congruence|]. cbn [andb]. replace (Bool.eqb m'' m) with false by (symmetry; rewrite <- C3; exact Q'). destruct (edge_dec (u, v) (K, K)); rewrite app_nil_r; reflexivity. }
  split; [|split; [|exact J3']].
  - rewrite CC. cbn [q_sent set_q_sent]. rewrite filter_app. cbn [filter]. change (ends (set_q_sent (q_sent s ++ [c]) (putOn K K c s))) with (ends s). rewrite <- J1. unfold E. cbn [cont]. rewrite FP, eqb_reflx.
    assert (CL : cont (putOn K K c s) l = cont s l). { apply cont_ext. intros e I. rewrite FP. destruct (edge_dec e (K, K)) as [->|_]; [|apply app_nil_r]. destruct (keep c) eqn:KC; [|apply app_nil_r]. destruct (keep_facts c KC) as (C1 & _). cbn in C1. subst K. inversion ND. contradiction. }
    rewrite CL. rewrite <- app_assoc. f_equal. rewrite <- app_assoc. f_equal. destruct (keep c) eqn:KC; [|rewrite app_nil_r; destruct (edge_dec (K0, K0) (K, K)); apply app_nil_r]. destruct (keep_facts c KC) as (C1 & _). cbn in C1. subst K. destruct (edge_dec (K0, K0) (K0, K0)); [reflexivity|congruence].
  - intros m' e H. rewrite FF, FP, (J2 m' e H). destruct (edge_dec e (K, K)) as [->|_]; [|reflexivity]. destruct (keep c) eqn:KC; [|reflexivity]. destruct (keep_facts c KC) as (C1 & _). cbn in C1. subst K. destruct H as [->|H]; [rewrite eqb_negb1; reflexivity|]. exfalso. apply H. left. reflexivity.
Qed.
Lemma J_answers l K f ns s : NoDup ((K0, K0) :: l) -> J ((K0, K0) :: l) s -> J ((K0, K0) :: l) (answers K f ns s).
Proof. intros ND. unfold answers. revert s. induction ns as [|c ns IH]; intros s H; [exact H|]. cbn [fold_left]. apply IH, J_send; assumption. Qed.
Lemma J_returned E f x s : J E s -> J E (returned f x s).
Proof. apply J_same; reflexivity. Qed.
Lemma J_takeOff E f a b s : J E s -> J E (takeOff f a b s).
Proof. apply J_same; reflexivity. Qed.
Lemma J_run es l : way (nxt n) (goal n) K0 l -> J ((K0, K0) :: l) (qrun es).
Proof.
  intros W. pose proof (stream_nodup l W) as ND. induction es as [|e es IH] using rev_ind.
  - split; [|split; [intros; reflexivity|intros m' x y c []]]. unfold ends. cbn. assert (Z : forall E, cont qsys0 E = []) by (induction E as [|e E IHE]; [reflexivity|cbn; rewrite IHE; reflexivity]). change (cont (qrun []) l) with (cont qsys0 l). rewrite Z. destruct (owner n); reflexivity.
  - rewrite qrun_snoc. destruct e as [K src target fast text|f|f|m' x y]; cbn [Command.qstep].
    + destruct (t_core T K); [apply J_send|]; assumption.
    + destruct (owner f) as [K|]; [|exact IH]. unfold getCommand. destruct (span (q_box (qrun es) f)) as [ns [|c r]]; apply J_returned, J_answers, J_takeOff, IH; exact ND.
    + destruct (owner f) as [K|]; [|exact IH]. unfold waitCommand. destruct (q_box (qrun es) f) as [|c r]; [exact IH|]. destruct (isNotify c); [|apply J_returned, J_takeOff, IH]. destruct r as [|c2 r2]; [exact IH|]. apply J_returned, J_answers, J_takeOff, IH; exact ND.
    + apply J_serve; assumption.
Qed.

(** serving one connection *)
Lemma serve_links m' x y c r s a b m'' : q_links s m' x y = c :: r -> a <> y -> q_links (attend m' x y s) m'' a b = if Bool.eqb m'' m' && (Nat.eqb a x && Nat.eqb b y) then r else q_links s m'' a b.
Proof.
  intros L N. rewrite (attend_some _ _ _ _ _ _ L), does_nxt. destruct (nxt (c_target c) y) as [|z|]; [destruct (t_core T y); [unfold hand; destruct (reserved (c_text c))|]; reflexivity| |reflexivity]. cbn. rewrite (proj2 (Nat.eqb_neq a y) N). cbn. rewrite andb_false_r. reflexivity.
Qed.
Lemma nxt_self x f : nxt f x <> Next x.
Proof.
  unfold nxt. assert (U : (match par x with Some p => Next p | None => Lost end) <> Next x) by (destruct (par x) as [p|] eqn:P; [|discriminate]; intros Q; injection Q as ->; pose proof (parent_depth T HT _ _ P); lia).
  destruct (t_core T x); [destruct (owner f) as [K|]; [destruct (Nat.eqb K x); [discriminate|exact U]|exact U]|]. destruct (route x f) as [k|] eqn:Q; [|destruct (Nat.eqb x root); [discriminate|exact U]].
  intros E. injection E as ->. apply HR in Q as (K & _ & P & _). pose proof (parent_depth T HT _ _ P). lia.
Qed.
Lemma serve_own m' x c r s m'' : q_links s m' x x = c :: r -> q_links (attend m' x x s) m'' x x = if Bool.eqb m'' m' then r else q_links s m'' x x.
Proof.
  intros L. rewrite (attend_some _ _ _ _ _ _ L), does_nxt. pose proof (nxt_self x (c_target c)) as NS. assert (PP : forall s1, q_links s1 = q_links (popped m' x x r s) -> q_links s1 m'' x x = if Bool.eqb m'' m' then r else q_links s m'' x x) by (intros s1 ->; cbn; rewrite !Nat.eqb_refl, andb_true_r; reflexivity).
  destruct (nxt (c_target c) x) as [|z|]; [destruct (t_core T x); [unfold hand; destruct (reserved (c_text c))|]; apply PP; reflexivity| |apply PP; reflexivity].
  cbn. rewrite !Nat.eqb_refl, (proj2 (Nat.eqb_neq x z)) by congruence. cbn. rewrite !andb_false_r, andb_true_r. reflexivity.
Qed.
Definition serves (es : list qevent) : Prop := Forall (fun e => match e with Q_serve _ _ _ => True | _ => False end) es.
Lemma drain x y s : exists es, serves es /\ q_links (fold_left qstep es s) m x y = [] /\ forall a b, a <> y -> (a, b) <> (x, y) -> q_links (fold_left qstep es s) m a b = q_links s m a b.
Proof.
  remember (length (q_links s m x y)) as k eqn:N. symmetry in N. revert s N. induction k as [|k IH]; intros s N.
  - exists []. split; [constructor|]. cbn [fold_left]. split; [destruct (q_links s m x y); [reflexivity|discriminate]|reflexivity].
  - destruct (q_links s m x y) as [|c r] eqn:L; [discriminate|]. injection N as N. destruct (IH (attend m x y s)) as (es & A & B & C).
    { destruct (Nat.eq_dec x y) as [->|NE]; [rewrite (serve_own _ _ _ _ _ _ L), eqb_reflx; exact N|]. rewrite (serve_links _ _ _ _ _ _ _ _ _ L NE), eqb_reflx, !Nat.eqb_refl. exact N. }
    exists (Q_serve m x y :: es). split; [constructor; [exact I|exact A]|]. split; [exact B|]. intros a b H NE. cbn [fold_left Command.qstep]. rewrite C by assumption. rewrite (serve_links _ _ _ _ _ _ _ _ _ L H), (edge_neq _ _ _ _ NE), andb_false_r. reflexivity.
Qed.
Lemma drain_way l : forall x s, way (nxt n) (goal n) x l -> exists es, serves es /\ (forall e, In e l -> q_links (fold_left qstep es s) m (fst e) (snd e) = []) /\ forall a b, ~ In a (map snd l) -> ~ In (a, b) l -> q_links (fold_left qstep es s) m a b = q_links s m a b.
Proof.
  induction l as [|[u v] l IH]; intros x s W.
  - exists []. split; [constructor|]. split; [intros e []|reflexivity].
  - destruct (way_nodup _ _ _ _ W) as [ND NI]. destruct (way_inv _ _ _ _ W) as [(_ & Q & _)|(z & l' & Q & HN & W')]; [discriminate|]. injection Q as E1 E2 E3. subst u z l'.
    destruct (drain x v s) as (e1 & A1 & B1 & C1). destruct (IH v (fold_left qstep e1 s) W') as (e2 & A2 & B2 & C2). exists (e1 ++ e2). rewrite fold_left_app. cbn [map snd] in NI.
    split; [apply Forall_app; auto|]. split.
    + intros e [<-|I]; [|apply B2, I]. cbn [fst snd]. rewrite C2; [exact B1|intros I; apply NI; right; exact I|inversion ND; assumption].
    + intros a b H1 H2. rewrite C2; [|intros I; apply H1; right; exact I|intros I; apply H2; right; exact I]. apply C1; [intros ->; apply H1; left; reflexivity|intros Q; apply H2; left; auto].
Qed.
Lemma cont_nil s E : (forall e, In e E -> q_links s m (fst e) (snd e) = []) -> cont s E = [].
Proof. induction E as [|e E IH]; intros H; [reflexivity|]. cbn. unfold F. rewrite (H e) by (left; reflexivity). rewrite IH by (intros e' I; apply H; right; exact I). reflexivity. Qed.
Lemma serves_sent es s : serves es -> q_sent (fold_left qstep es s) = q_sent s.
Proof.
  intros A. revert s. induction A as [|e es H A IH]; intros s; [reflexivity|]. cbn [fold_left]. rewrite IH. destruct e as [K0' src target fast text|f|f|m' x y]; try contradiction. cbn [Command.qstep]. destruct (q_links s m' x y) as [|c r] eqn:L; [rewrite (attend_none _ _ _ _ L); reflexivity|]. rewrite (attend_some _ _ _ _ _ _ L), does_nxt.
  destruct (nxt (c_target c) y) as [|z|]; [destruct (t_core T y); [unfold hand; destruct (reserved (c_text c))|]; reflexivity|reflexivity|reflexivity].
Qed.
Lemma stream_order es : exists rest, filter keep (ends (qrun es)) ++ rest = filter keep (q_sent (qrun es)).
Proof. destruct (way_any n K0) as [l W]. destruct (J_run es l W) as (J1 & _). eexists. exact J1. Qed.
Lemma stream_all es : (forall x y, q_links (qrun es) m x y = []) -> filter keep (ends (qrun es)) = filter keep (q_sent (qrun es)).
Proof. intros Q. destruct (way_any n K0) as [l W]. destruct (J_run es l W) as (J1 & _). rewrite cont_nil in J1 by (intros; apply Q). rewrite app_nil_r in J1. exact J1. Qed.
Lemma stream_completes es : exists work, serves work /\ filter keep (ends (qrun (es ++ work))) = filter keep (q_sent (qrun es)).
Proof.
  destruct (way_any n K0) as [l W]. destruct (way_nodup _ _ _ _ W) as [ND NI]. destruct (drain K0 K0 (qrun es)) as (e1 & A1 & B1 & _). destruct (drain_way l K0 (fold_left qstep e1 (qrun es)) W) as (e2 & A2 & B2 & C2).
  exists (e1 ++ e2). assert (A : serves (e1 ++ e2)) by (apply Forall_app; auto). split; [exact A|]. destruct (J_run (es ++ e1 ++ e2) l W) as (J1 & _).
  assert (Q : qrun (es ++ e1 ++ e2) = fold_left qstep e2 (fold_left qstep e1 (qrun es))) by (unfold Command.qrun; rewrite !fold_left_app; reflexivity).
  rewrite cont_nil in J1; [|intros e [<-|I]; rewrite Q; [|apply B2, I]; cbn [fst snd]; rewrite C2; [exact B1|exact NI|intros I; apply NI, in_map_iff; exists (K0, K0); auto]].
  rewrite app_nil_r in J1. rewrite J1, Q, <- fold_left_app, serves_sent by exact A. reflexivity.
Qed.
End Stream.

(** ** the theorems *)
(** the commands of one mode ([fast] or ordered) which were sent from a core to a name *)
Definition sentTo (es : list qevent) (K0 : nat) (n : string) (fast : bool) : list cmd := filter (keep K0 n fast) (q_sent (qrun es)).
(** what a federate is handed from one core in one mode is a beginning of what was sent to its name from there: in order and
    each command once (the numbers are distinct) *)
Theorem C52_commands_arrive_in_order_once es K0 n fast K : owner n = Some K -> exists rest, filter (keep K0 n fast) (q_arrived (qrun es) n) ++ rest = sentTo es K0 n fast.
Proof. intros O. pose proof (stream_order K0 n fast es) as H. unfold ends in H. rewrite O in H. exact H. Qed.
Theorem C52_nothing_is_lost es K0 n fast K : owner n = Some K -> (forall x y, q_links (qrun es) fast x y = []) -> filter (keep K0 n fast) (q_arrived (qrun es) n) = sentTo es K0 n fast.
Proof. intros O Q. pose proof (stream_all K0 n fast es Q) as H. unfold ends in H. rewrite O in H. exact H. Qed.
Theorem C52_delivery_completes es K0 n fast K : owner n = Some K -> exists work, serves work /\ filter (keep K0 n fast) (q_arrived (qrun (es ++ work)) n) = sentTo es K0 n fast.
Proof. intros O. pose proof (stream_completes K0 n fast es) as H. unfold ends in H. rewrite O in H. exact H. Qed.
(** for a name which nobody has, the root answers so: once for each command, and always in the end *)
Theorem C52_unknown_target_is_reported es K0 n fast : owner n = None ->
  q_arrived (qrun es) n = [] /\ (exists rest, filter (keep K0 n fast) (q_lost (qrun es)) ++ rest = sentTo es K0 n fast)
  /\ exists work, serves work /\ filter (keep K0 n fast) (q_lost (qrun (es ++ work))) = sentTo es K0 n fast.
Proof.
  intros O. pose proof (stream_order K0 n fast es) as H1. pose proof (stream_completes K0 n fast es) as H2. unfold ends in H1, H2. rewrite O in H1, H2. split; [|split; assumption]. clear H1 H2.
  induction es as [|e es IH] using rev_ind; [reflexivity|]. rewrite qrun_snoc. set (s := qrun es) in *. clearbody s.
  assert (AN : forall K f ns s1, q_arrived (answers K f ns s1) = q_arrived s1) by (intros K f ns; induction ns as [|c ns IHn]; intros s1; [reflexivity|]; cbn; unfold answers in IHn; rewrite IHn; reflexivity).
  destruct e as [K src target fast' text|f|f|m' x y]; cbn [Command.qstep].
  - destruct (t_core T K); [|exact IH]. unfold sendCommand. destruct (String.eqb text "flush"); exact IH.
  - destruct (owner f); [|exact IH]. unfold getCommand. destruct (span (q_box s f)) as [ns [|c r]]; cbn [q_arrived returned set_q_got]; rewrite AN; exact IH.
  - destruct (owner f); [|exact IH]. unfold waitCommand. destruct (q_box s f) as [|c r]; [exact IH|]. destruct (isNotify c); [|exact IH]. destruct r; [exact IH|]. cbn [q_arrived returned set_q_got]. rewrite AN. exact IH.
  - destruct (q_links s m' x y) as [|c r] eqn:L; [rewrite (attend_none _ _ _ _ L); exact IH|]. rewrite (attend_some _ _ _ _ _ _ L). unfold Command.does. destruct (t_core T y).
    + unfold coreCmd. destruct (owner (c_target c)) as [K'|] eqn:O'; [destruct (Nat.eqb K' y)|]; try (unfold up; destruct (par y); exact IH). assert (N : n <> c_target c) by congruence. apply String.eqb_neq in N.
      unfold hand. destruct (reserved (c_text c)); cbn; unfold at_; rewrite N; exact IH.
    + unfold brokerCmd. destruct (route y (c_target c)); [exact IH|]. destruct (Nat.eqb y root); [exact IH|]. unfold up. destruct (par y); exact IH.
Qed.
End Flow.
