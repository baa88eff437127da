(** * C45: entering initializing mode, for every history; the barrier when nobody iterates *)
From Coq Require Import ZArith Bool List Lia.
From Verif Require Import Route InitMode InitInv.
Import ListNotations.
Open Scope nat_scope.

(** ** Specification *)
(** the call of enterInitializingMode made by f returns next: with true, it is to iterate; with false, f is in the mode *)
Definition returns (s : gs) (f : nat) (i : bool) : Prop := f_wait (fds s f) = true /\ exists r, f_in (fds s f) = i :: r.
(** f has called enterInitializingMode, and the call has not returned, or f is in initializing mode *)
Definition hasAsked (s : gs) (f : nat) : Prop := f_wait (fds s f) = true \/ f_done (fds s f) = true.
(** f registered with some core *)
Definition registered (s : gs) (f : nat) : Prop := f_core (fds s f) <> None.

Section Props.
Context (T : topology) (C : config) (HT : tree T).
Local Notation root := (t_root T).

Lemma nstep_grows s e n x : nstep T C s e n x -> grows (nodes s n) x.
Proof.
  intros N. destruct N; try apply grows_refl; try (apply grows_same; reflexivity).
  - apply grows_same; unfold coreReg; destruct (c_hidden C f); reflexivity.
  - apply grows_brokerReg.
  - apply grows_fedReg.
  - apply grows_brokerInit.
  - apply grows_brokerNot.
  - apply grows_same; unfold coreGrant; destruct i; [destruct (its _); [destruct (cst _); reflexivity|reflexivity]|destruct (cst _); reflexivity|destruct (its _); [destruct (cst _); reflexivity|reflexivity]|destruct (cst _); reflexivity].
  - eapply grows_trans; [|apply grows_brokerGrant]. apply grows_same; reflexivity.
  - apply grows_same; unfold coreAck; (destruct (_ && readyC _ _); [rewrite (proj1 (proj2 (proj2 (proj2 (coreAsk_facts _ _))))) || rewrite (proj1 (proj2 (proj2 (proj2 (proj2 (coreAsk_facts _ _)))))); reflexivity|reflexivity]).
  - apply grows_same; unfold coreRequest; destruct i; reflexivity.
  - apply grows_same; unfold coreInit; (destruct (hasC _ _); [|reflexivity]); (destruct (readyC _ _); [|reflexivity]); (rewrite (proj1 (proj2 (proj2 (proj2 (coreAsk_facts _ _))))) || rewrite (proj1 (proj2 (proj2 (proj2 (proj2 (coreAsk_facts _ _)))))); reflexivity).
  - apply grows_same; unfold coreEnable; (destruct (_ && readyC _ _); [rewrite (proj1 (proj2 (proj2 (proj2 (coreAsk_facts _ _))))) || rewrite (proj1 (proj2 (proj2 (proj2 (proj2 (coreAsk_facts _ _)))))); reflexivity|reflexivity]).
Qed.
Lemma step_grows s e n : grows (nodes s n) (nodes (step T C s e) n).
Proof.
  destruct (step_node T C HT s e n) as [x [d [E [N _]]]]. rewrite E. eapply grows_trans; [apply (nstep_grows _ _ _ _ N)|]. apply grows_same; reflexivity.
Qed.

(** the grants in the queue of the node come from the step before, or were there *)
Lemma nstep_dn s e n x b : nstep T C s e n x -> In b (dn x) -> In b (dn (nodes s n)).
Proof.
  assert (forall i y, dn (coreAsk i y) = dn y) as CA by (intros; apply coreAsk_facts).
  intros N. destruct N; try (intros HI; exact HI).
  - unfold coreReg. destruct (c_hidden C f); intros I; exact I.
  - unfold brokerReg. destruct (MBrk _ <=? _); [intros H'; exact H'|]. destruct (op _); [intros H'; exact H'|].
    set (x1 := if readyB _ _ _ then _ else _). assert (dn x1 = dn (nodes s n)) as D by (subst x1; destruct (readyB _ _ _); [apply sendN_facts|reflexivity]).
    clearbody x1. destruct (findE _ _); [|destruct (_ =? _)]; fields; rewrite D; intros I; exact I.
  - unfold fedReg. destruct (negb _ && _); [intros H'; exact H'|]. destruct (op _ && _); [intros H'; exact H'|].
    set (x1 := if negb _ && _ && _ then _ else _). assert (dn x1 = dn (nodes s n)) as D by (subst x1; destruct (negb _ && _ && _); [apply sendN_facts|reflexivity]).
    clearbody x1. destruct (existsb _ _); [|destruct (_ =? _)]; fields; rewrite D; intros I; exact I.
  - unfold brokerInit. destruct (findE _ _); [|intros I; exact I].
    set (x1 := set_ents _ _). assert (dn x1 = dn (nodes s n)) as D by reflexivity. clearbody x1.
    destruct (readyB _ _ _); [|cbn [fst]; rewrite D; intros I; exact I].
    destruct (_ =? _); [destruct (it x1); fields; unfold iterState; fields; rewrite D; intros I; exact I|].
    cbn [fst]. replace (dn (sendN T n (MInit (it x1)) (set_asked true x1))) with (dn (set_asked true x1)) by (symmetry; apply sendN_facts). fields. rewrite D. intros I; exact I.
  - unfold brokerNot. destruct (_ && _); [intros I; exact I|]. destruct (readyB _ _ _); fields; [|intros I; exact I].
    replace (dn (sendN T n (MNot src) (nodes s n))) with (dn (nodes s n)) by (symmetry; apply sendN_facts). intros I; exact I.
  - assert (dn (fst (coreGrant i (set_dn r (nodes s n)))) = r) as ->.
    { unfold coreGrant. destruct i; [destruct (its _); [destruct (cst _)|]|destruct (cst _)]; reflexivity. }
    rewrite H0. intros I. right. exact I.
  - assert (dn (fst (brokerGrant i (set_dn r (nodes s n)))) = r) as -> by (unfold brokerGrant; destruct i; reflexivity).
    rewrite H0. intros I. right. exact I.
  - unfold coreAck. destruct (_ && readyC _ _); [rewrite CA|]; fields; intros I; exact I.
  - unfold coreRequest. destruct i; intros I; exact I.
  - unfold coreInit. destruct (hasC _ _); [|intros I; exact I]. destruct (readyC _ _); [rewrite CA|]; intros I; exact I.
  - unfold coreEnable. destruct (_ && readyC _ _); [rewrite CA|]; intros I; exact I.
Qed.

(** the root of what brokerInit sends down *)
Lemma brokerInit_out L p c i x n b : In (n, b) (snd (brokerInit T L p c i x)) ->
  p = root /\ exists x1, readyB L p x1 = true /\ grows x1 (fst (brokerInit T L p c i x)) /\ b = it x1 /\
    x1 = set_ents (updE (ents x) c (fun e => setSt true (e_it e || i) e)) (set_it (it x || i) x).
Proof.
  unfold brokerInit. destruct (findE (ents x) c); [|intros []]. set (x1 := set_ents _ _).
  destruct (readyB L p x1) eqn:R; [|intros []]. destruct (p =? root) eqn:P; [|intros []]. apply Nat.eqb_eq in P.
  intros I. split; [exact P|]. exists x1. split; [exact R|]. destruct (it x1) eqn:IT; cbn [fst snd] in *.
  - split; [apply grows_iterState|]. split; [|reflexivity]. unfold iterOut in I. apply in_map_iff in I as [e' [E _]]. congruence.
  - split; [apply grows_same; reflexivity|]. split; [|reflexivity]. unfold finalOut in I. apply in_map_iff in I as [e' [E _]]. congruence.
Qed.

Definition limitsMet (s : gs) : Prop := limitsB (c_lim C root) root (nodes s root).
Definition limInv (s : gs) : Prop :=
  (forall n, dn (nodes s n) <> [] -> limitsMet s) /\ (forall f, f_in (fds s f) <> [] \/ f_done (fds s f) = true -> limitsMet s).

Lemma limInv_step s e : limInv s -> limInv (step T C s e).
Proof.
  intros [A B].
  assert (limitsMet s -> limitsMet (step T C s e)) as M by (apply limitsB_grows; apply step_grows).
  split.
  - intros n D. destruct (step_node T C HT s e n) as [x [d [E [N S]]]]. rewrite E in D. fields.
    assert ((exists b, In b (dn x)) \/ exists b, In b d) as [[b I]|[b I]].
    { revert D. destruct (dn x) as [|b r]; [intros D; right|left; exists b; left; reflexivity]. destruct d as [|b r]; [cbn in D; congruence|exists b; left; reflexivity]. }
    + apply M, (A n). apply (nstep_dn _ _ _ _ _ N) in I. intros Z. rewrite Z in I. destruct I.
    + destruct S as [| c p i r n P U |p i r n K DN]; [destruct I| |].
      * apply to_in in I. destruct (brokerInit_out _ _ _ _ _ _ _ I) as [-> [x1 [R [G _]]]].
        apply readyB_iff in R as [R _]. apply (limitsB_grows _ _ _ _ G) in R.
        unfold limitsMet. destruct (step_node T C HT s (EUpN c) root) as [y [d' [E' _]]].
        eapply limitsB_grows; [|exact R]. clear - HT P U.
        cbn [step]. rewrite P, U. cbv zeta. pose proof (parent_neq T HT _ _ P) as PN.
        replace (nodes (setN c (set_upN r (nodes s c)) s) root) with (nodes s root) by (unfold setN; cbn [nodes set_nodes]; rewrite put_neq by exact PN; reflexivity).
        destruct (brokerInit T (c_lim C root) root c i (nodes s root)) as [y out]. rewrite sendDown_nodes. unfold setN. cbn [nodes set_nodes fst]. rewrite put_eq.
        apply grows_same; reflexivity.
      * apply M, (A p). congruence.
  - intros f H. destruct (step_fed T C s e f) as [e f|c f|f|c f i F1 F2 F3 F4 F5|f i r W I|c i r f K D]; fields; try (apply M, (B f); exact H).
    + apply M, (B f). left. congruence.
    + destruct H as [H|H]; [|apply M, (B f); right; exact H]. apply M. destruct (f_in (fds s f)) as [|b l] eqn:FI; [|apply (B f); left; rewrite FI; congruence].
      apply (A c). congruence.
Qed.
Lemma limInv_run h : limInv (run T C h).
Proof.
  induction h as [|e h IH] using rev_ind.
  - split; [intros n D|intros f [D|D]].
    + exfalso. apply D. unfold run, gs0. cbn [fold_left nodes]. destruct (n =? root); reflexivity.
    + exfalso. apply D. reflexivity.
    + discriminate.
  - rewrite run_snoc. apply limInv_step. exact IH.
Qed.

(** what the tables of the brokers contain *)
Definition regInv (s : gs) : Prop :=
  (forall n x, In x (feds (nodes s n)) -> registered s (x_id x) /\ x_count x = negb (c_hidden C (x_id x))) /\
  (forall n, NoDup (map x_id (feds (nodes s n)))) /\
  (forall n f, In (RegF f) (upP (nodes s n)) -> registered s f).

Lemma brokerReg_feds L p c k x : feds (fst (brokerReg T L p c k x)) = feds x.
Proof.
  unfold brokerReg. destruct (_ <=? _); [reflexivity|]. destruct (op x); [reflexivity|]. set (x1 := if readyB _ _ _ then _ else _).
  assert (feds x1 = feds x) as <- by (subst x1; destruct (readyB _ _ _); [apply sendN_facts|reflexivity]). clearbody x1.
  destruct (findE _ _); [reflexivity|]. destruct (_ =? _); reflexivity.
Qed.
Lemma brokerReg_upP L p c k x m : In m (upP (fst (brokerReg T L p c k x))) -> In m (upP x) \/ (m = Reg k /\ findE (ents x) k = None).
Proof.
  unfold brokerReg. destruct (_ <=? _); [intros; left; assumption|]. destruct (op x); [intros; left; assumption|]. set (x1 := if readyB _ _ _ then _ else _).
  assert (upP x1 = upP x) as U by (subst x1; destruct (readyB _ _ _); [apply sendN_facts|reflexivity]).
  assert (ents x1 = ents x) as U2 by (subst x1; destruct (readyB _ _ _); [apply sendN_facts|reflexivity]). clearbody x1.
  destruct (findE _ _) eqn:F; [fields; rewrite U; intros; left; assumption|]. rewrite <- U2. destruct (_ =? _); fields; rewrite U; intros I; [left; exact I|].
  apply in_app_or in I as [I|[I|[]]]; [left; exact I|right; split; [symmetry; exact I|exact F]].
Qed.
Lemma fedReg_facts p c f x : 
  (feds (fst (fedReg T C p c f x)) = feds x /\ upP (fst (fedReg T C p c f x)) = upP x) \/
  ((forall g, In g (feds x) -> x_id g <> f) /\ feds (fst (fedReg T C p c f x)) = feds x ++ [mkFent f c (negb (c_hidden C f))] /\
   (upP (fst (fedReg T C p c f x)) = upP x \/ (upP (fst (fedReg T C p c f x)) = upP x ++ [RegF f]))).
Proof.
  unfold fedReg. destruct (_ && _); [left; split; reflexivity|]. destruct (op x && _); [left; split; reflexivity|]. set (x1 := if negb _ && _ && _ then _ else _).
  assert (upP x1 = upP x) as U by (subst x1; destruct (negb _ && _ && _); [apply sendN_facts|reflexivity]).
  assert (feds x1 = feds x) as U2 by (subst x1; destruct (negb _ && _ && _); [apply sendN_facts|reflexivity]). clearbody x1.
  destruct (existsb (fun g => x_id g =? f) (feds x1)) eqn:X; [left; fields; split; assumption|]. right. split; [|destruct (_ =? _); fields; rewrite U, U2; (split; [reflexivity|])].
  - intros g I E. rewrite <- U2 in I. assert (existsb (fun g => x_id g =? f) (feds x1) = true); [|congruence]. apply existsb_exists. exists g. split; [exact I|apply Nat.eqb_eq; exact E].
  - left. reflexivity.
  - right. reflexivity.
Qed.

Lemma NoDup_snoc {A} (l : list A) a : NoDup l -> ~ In a l -> NoDup (l ++ [a]).
Proof.
  induction l as [|b l IH]; intros N I; [constructor; [exact I|constructor]|]. inversion N as [|? ? N1 N2]; subst. cbn [app]. constructor.
  - intros J. apply in_app_or in J as [J|[J|[]]]; [apply N1; exact J|]. apply I. left. symmetry. exact J.
  - apply IH; [exact N2|]. intros J. apply I. right. exact J.
Qed.

(** the steps at a core leave the tables of brokers alone, and those which are not registrations the queue as well *)
Lemma nstep_regs s e n x : nstep T C s e n x ->
  (feds x = feds (nodes s n) /\ (forall m, In m (upP x) -> In m (upP (nodes s n)) \/
     (e = EJoin n /\ m = Reg n) \/ (exists f, e = EReg n f /\ f_core (fds s f) = None /\ t_core T n = true /\ acked (nodes s n) = true /\ m = RegF f) \/
     (exists c k r, e = EUpP c /\ upP (nodes s c) = Reg k :: r /\ m = Reg k))) \/
  (exists c f r, e = EUpP c /\ upP (nodes s c) = RegF f :: r /\ x = fst (fedReg T C n c f (nodes s n)) /\ t_parent T c = Some n /\ acked (nodes s c) = true).
Proof.
  assert (forall i y, feds (coreAsk i y) = feds y) as CA by (intros; apply coreAsk_facts).
  assert (forall i y, upP (coreAsk i y) = upP y) as CB by (intros; apply coreAsk_facts).
  intros N. destruct N; try (left; split; [reflexivity|intros m' I; left; exact I]).
  - left. fields. split; [reflexivity|]. intros m I. apply in_app_or in I as [I|[I|[]]]; [left; exact I|right; left]. split; [reflexivity|symmetry; exact I].
  - left. unfold coreReg. destruct (c_hidden C f); fields; (split; [reflexivity|]); intros m I; (apply in_app_or in I as [I|[I|[]]]; [left; exact I|]); right; right; left; exists f; repeat (split; [reflexivity || assumption|]); symmetry; exact I.
  - left. fields. split; [reflexivity|]. intros m' I. left. rewrite H0. right. exact I.
  - left. split; [apply brokerReg_feds|]. intros m I. apply brokerReg_upP in I as [I|[I _]]; [left; exact I|]. right; right; right. exists c, k, r. repeat (split; [reflexivity || assumption|]). exact I.
  - right. exists c, f, r. repeat (split; [reflexivity || assumption|]). assumption.
  - left. unfold brokerInit. destruct (findE _ _); [|split; [reflexivity|intros m I; left; exact I]]. set (x1 := set_ents _ _).
    assert (feds x1 = feds (nodes s n)) as <- by reflexivity. assert (upP x1 = upP (nodes s n)) as <- by reflexivity. clearbody x1.
    destruct (readyB _ _ _); [|split; [reflexivity|intros m I; left; exact I]].
    destruct (_ =? _); [destruct (it x1); (split; [reflexivity|intros m I; left; exact I])|]. cbn [fst].
    destruct (sendN_facts T n (MInit (it x1)) (set_asked true x1)) as [_ [_ [_ [_ [F1 [_ [_ [_ [_ [_ [F2 _]]]]]]]]]]].
    rewrite F1, F2. split; [reflexivity|intros m I; left; exact I].
  - left. unfold brokerNot. destruct (_ && _); [split; [reflexivity|intros m I; left; exact I]|]. destruct (readyB _ _ _); fields; [|split; [reflexivity|intros m I; left; exact I]].
    destruct (sendN_facts T n (MNot src) (nodes s n)) as [_ [_ [_ [_ [F1 [_ [_ [_ [_ [_ [F2 _]]]]]]]]]]]. rewrite F1, F2. split; [reflexivity|intros m I; left; exact I].
  - left. unfold coreGrant. destruct i; [destruct (its _); [destruct (cst _)|]|destruct (cst _)]; (split; [reflexivity|intros m I; left; exact I]).
  - left. unfold brokerGrant. destruct i; (split; [reflexivity|intros m I; left; exact I]).
  - left. unfold coreAck. destruct (_ && readyC _ _); [rewrite CA, CB|]; (split; [reflexivity|intros m I; left; exact I]).
  - left. unfold coreRequest. destruct i; (split; [reflexivity|intros m I; left; exact I]).
  - left. unfold coreInit. destruct (hasC _ _); [|split; [reflexivity|intros m I; left; exact I]]. destruct (readyC _ _); [rewrite CA, CB|]; (split; [reflexivity|intros m I; left; exact I]).
  - left. unfold coreEnable. destruct (_ && readyC _ _); [rewrite CA, CB|]; (split; [reflexivity|intros m I; left; exact I]).
Qed.

Lemma registered_step s e f : registered s f -> registered (step T C s e) f.
Proof.
  unfold registered. intros R. destruct (step_fed T C s e f); fields; try exact R. discriminate.
Qed.
Lemma reg_now s c f : t_core T c = true -> acked (nodes s c) = true -> f_core (fds s f) = None -> registered (step T C s (EReg c f)) f.
Proof.
  intros K A F. unfold registered. cbn [step]. rewrite K, A, F. cbn [andb]. unfold setF. cbn [fds set_fds]. rewrite put_eq. discriminate.
Qed.

Lemma regInv_step s e : regInv s -> regInv (step T C s e).
Proof.
  intros [A [B D]]. split; [|split].
  - intros n x I. destruct (step_node T C HT s e n) as [y [d [E [N _]]]]. rewrite E in I. fields.
    destruct (nstep_regs _ _ _ _ N) as [[F _]|[c [f [r [-> [U [Y _]]]]]]].
    + rewrite F in I. destruct (A n x I) as [R Q]. split; [apply registered_step; exact R|exact Q].
    + subst y. destruct (fedReg_facts n c f (nodes s n)) as [[F _]|[_ [F _]]]; rewrite F in I.
      * destruct (A n x I) as [R Q]. split; [apply registered_step; exact R|exact Q].
      * apply in_app_or in I as [I|[<-|[]]]; [destruct (A n x I) as [R Q]; split; [apply registered_step; exact R|exact Q]|].
        fields. split; [|reflexivity]. apply registered_step. apply (D c). rewrite U. left. reflexivity.
  - intros n. destruct (step_node T C HT s e n) as [y [d [E [N _]]]]. rewrite E. fields.
    destruct (nstep_regs _ _ _ _ N) as [[F _]|[c [f [r [-> [U [Y _]]]]]]]; [rewrite F; apply B|].
    subst y. destruct (fedReg_facts n c f (nodes s n)) as [[F _]|[G [F _]]]; rewrite F; [apply B|].
    rewrite map_app. cbn [map x_id]. apply NoDup_snoc; [apply B|]. intros I. apply in_map_iff in I as [g [E' I]]. apply (G g I E').
  - intros n f I. destruct (step_node T C HT s e n) as [y [d [E [N _]]]]. rewrite E in I. fields.
    destruct (nstep_regs _ _ _ _ N) as [[_ F]|[c [g [r [-> [U [Y _]]]]]]].
    + destruct (F _ I) as [J|[[_ J]|[[g [-> [G1 [G2 [G3 J]]]]]|[c [k [r [_ [_ J]]]]]]]]; try discriminate.
      * apply registered_step, (D n), J.
      * injection J as <-. apply reg_now; assumption.
    + subst y. assert (registered s g) as R by (apply (D c); rewrite U; left; reflexivity).
      destruct (fedReg_facts n c g (nodes s n)) as [[_ F]|[_ [_ [F|F]]]]; rewrite F in I; try (apply registered_step, (D n), I).
      apply in_app_or in I as [I|[I|[]]]; [apply registered_step, (D n), I|]. injection I as <-. apply registered_step. exact R.
Qed.
Lemma node0_empty n : feds (nodes (gs0 T) n) = [] /\ upP (nodes (gs0 T) n) = [] /\ ents (nodes (gs0 T) n) = [] /\ upN (nodes (gs0 T) n) = [] /\
  dn (nodes (gs0 T) n) = [] /\ cfeds (nodes (gs0 T) n) = [] /\ cq (nodes (gs0 T) n) = [] /\ op (nodes (gs0 T) n) = false /\ it (nodes (gs0 T) n) = false /\
  asked (nodes (gs0 T) n) = false /\ cst (nodes (gs0 T) n) = Conn /\ its (nodes (gs0 T) n) = false.
Proof. unfold gs0. cbn [nodes]. destruct (n =? root); repeat split. Qed.
Lemma regInv_run h : regInv (run T C h).
Proof.
  induction h as [|e h IH] using rev_ind.
  - unfold run. cbn [fold_left]. split; [|split].
    + intros n x I. destruct (node0_empty n) as [E _]. rewrite E in I. destruct I.
    + intros n. destruct (node0_empty n) as [E _]. rewrite E. constructor.
    + intros n f I. destruct (node0_empty n) as [_ [E _]]. rewrite E in I. destruct I.
  - rewrite run_snoc. apply regInv_step. exact IH.
Qed.

(** ** C45, any history: the limits of the root are met when a federate gets an answer *)
Theorem C45_enough_federates_before_initialization h f i : returns (run T C h) f i ->
  exists l, NoDup l /\ mFed (c_lim C root) <= length l /\
    (forall g, In g l -> registered (run T C h) g /\ c_hidden C g = false) /\
    (forall r, In r (req (c_lim C root)) -> registered (run T C h) r).
Proof.
  intros [_ [r F]]. destruct (limInv_run h) as [_ A]. destruct (regInv_run h) as [B [D _]].
  assert (limitsMet (run T C h)) as [L1 [_ [_ [_ [_ L6]]]]] by (apply (A f); left; congruence).
  set (s := run T C h) in *. exists (map x_id (filter x_count (feds (nodes s root)))). split; [|split; [|split]].
  - specialize (D root). revert D. generalize (feds (nodes s root)). induction l as [|a l IH]; [intros; constructor|]. cbn [map filter]. intros ND.
    inversion ND as [|? ? NI ND']; subst. destruct (x_count a); [|apply IH; exact ND']. cbn [map]. constructor; [|apply IH; exact ND'].
    intros I. apply NI. apply in_map_iff in I as [b [E I]]. apply filter_In in I as [I _]. rewrite <- E. apply in_map. exact I.
  - rewrite map_length. exact L1.
  - intros g I. apply in_map_iff in I as [b [<- I]]. apply filter_In in I as [I Q]. destruct (B _ _ I) as [R Q']. split; [exact R|].
    rewrite Q in Q'. symmetry in Q'. apply negb_true_iff in Q'. exact Q'.
  - intros q I. destruct (L6 q I) as [b [J <-]]. apply (B _ _ J).
Qed.
Theorem C45_enough_brokers_before_initialization h f i : returns (run T C h) f i ->
  mBrk (c_lim C root) <= length (ents (nodes (run T C h) root)) /\
  mChild (c_lim C root) <= length (filter (fun e => Nat.eqb (e_par e) root) (ents (nodes (run T C h) root))).
Proof.
  intros [_ [r F]]. destruct (limInv_run h) as [_ A].
  assert (limitsMet (run T C h)) as [_ [L2 [L3 _]]] by (apply (A f); left; congruence). split; assumption.
Qed.

(** ** The barrier, when no federate asks to iterate *)
Definition noIter (h : list event) : Prop := forall f, ~ In (ERequest f true) h.

(** the node has reported ready: a core has left the connected state, a broker has passed CMD_INIT on, the root has granted *)
Definition ready (s : gs) (n : nat) : Prop := if t_core T n then cst (nodes s n) <> Conn else asked (nodes s n) = true.

(** no trace of an iteration *)
Definition plainNode (x : nd) : Prop :=
  it x = false /\ its x = false /\ (forall e, In e (ents x) -> e_it e = false) /\ (forall q, In q (cfeds x) -> q_it q = false) /\
  (forall f i, In (f, i) (cq x) -> i = false) /\ (forall i, In (MInit i) (upN x) -> i = false) /\ (forall i, In i (dn x) -> i = false).

(** the invariant of one node; R: which nodes have reported ready, Q: which federates have asked *)
Definition nodeInv (R Q : nat -> Prop) (n : nat) (x : nd) : Prop :=
  (forall i, In (MInit i) (upN x) -> R n) /\
  (forall e, In e (ents x) -> e_local e = true -> t_parent T (e_id e) = Some n /\ (e_st e = true -> R (e_id e)) /\
     (asked x = true -> e_late e = false -> R (e_id e))) /\
  (cst x <> Conn -> forall q, In q (cfeds x) -> q_late q = false -> q_trans q = true) /\
  (forall q, In q (cfeds x) -> q_trans q = true -> Q (q_id q)) /\
  (forall f i, In (f, i) (cq x) -> Q f).

Lemma nodeInv_mono (R Q R' Q' : nat -> Prop) n x : (forall k, R k -> R' k) -> (forall k, Q k -> Q' k) -> nodeInv R Q n x -> nodeInv R' Q' n x.
Proof.
  intros HR HQ [A [B [D [E F]]]]. split; [|split; [|split; [|split]]].
  - intros i I. apply HR, (A i I).
  - intros e I L. destruct (B e I L) as [B1 [B2 B3]]. split; [exact B1|]. split; [intros X; apply HR, B2, X|intros X Y; apply HR, B3; assumption].
  - exact D.
  - intros q I X. apply HQ, (E q I X).
  - intros f i I. apply HQ, (F f i I).
Qed.

(** a node which differs only in fields the invariant does not read *)
Lemma nodeInv_same R Q n x y : nodeInv R Q n x -> upN y = upN x -> ents y = ents x -> asked y = asked x -> cst y = cst x ->
  cfeds y = cfeds x -> cq y = cq x -> nodeInv R Q n y.
Proof. intros H E1 E2 E3 E4 E5 E6. unfold nodeInv. rewrite E1, E2, E3, E4, E5, E6. exact H. Qed.

Lemma nodeInv_ask (R Q : nat -> Prop) n x i : (R n) -> (forall q, In q (cfeds x) -> q_trans q = true) -> nodeInv R Q n x -> nodeInv R Q n (coreAsk i x).
Proof.
  intros HR HT' H. pose proof (coreAsk_facts i x) as F. destruct F as [_ [_ [F1 [F2 [_ [_ [_ [F3 [F4 _]]]]]]]]].
  destruct H as [A [B [D [E G]]]]. unfold nodeInv. rewrite F1, F2, F3, F4. split; [intros; exact HR|]. split; [exact B|]. split; [|split; assumption].
  intros _ q I _. apply HT', I.
Qed.
Lemma coreAsk_ready i x : cst (coreAsk i x) <> Conn.
Proof. unfold coreAsk. destruct (cst x) eqn:E; [|congruence..]. cbn [set_cst acked]. destruct (acked x); discriminate. Qed.
Lemma readyC_trans L x : readyC L x = true -> forall q, In q (cfeds x) -> q_trans q = true.
Proof. unfold readyC. rewrite !andb_true_iff. intros [_ H]. rewrite forallb_forall in H. exact H. Qed.

Lemma sendN_in k n m x m' : In m' (upN (sendN k n m x)) -> In m' (upN x) \/ m' = m.
Proof.
  unfold sendN. destruct (_ =? _); [intros; left; assumption|]. fields. intros I. apply in_app_or in I as [I|[I|[]]]; [left; exact I|right; symmetry; exact I].
Qed.

(** adding an entry, a federate; possibly after CMD_INIT_NOT_READY *)
Lemma brokerReg_shape L p c k x : fst (brokerReg T L p c k x) = x \/
  exists x1, (x1 = x \/ x1 = sendN T p (MNot p) x) /\ op x = false /\
   (fst (brokerReg T L p c k x) = x1 \/
    (findE (ents x) k = None /\ exists u, fst (brokerReg T L p c k x) =
       set_upP u (set_ents (ents x ++ [mkEnt k (if Nat.eqb k c then p else c) (Nat.eqb k c) (t_core T k) false false (asked x)]) x1))).
Proof.
  unfold brokerReg. destruct (_ <=? _); [left; reflexivity|]. destruct (op x) eqn:O; [left; reflexivity|]. right.
  set (x1 := if readyB _ _ _ then _ else _). exists x1. split; [subst x1; destruct (readyB _ _ _); [right|left]; reflexivity|]. split; [reflexivity|].
  assert (ents x1 = ents x /\ asked x1 = asked x) as [E1 E2] by (subst x1; destruct (readyB _ _ _); [split; apply sendN_facts|split; reflexivity]).
  clearbody x1. rewrite E1, E2. destruct (findE (ents x) k); [left; reflexivity|]. right. split; [reflexivity|].
  destruct (_ =? _); cbn [fst]; [exists (upP x1)|eexists; reflexivity]. destruct x1; reflexivity.
Qed.
Lemma fedReg_shape p c f x : fst (fedReg T C p c f x) = x \/
  exists x1, (x1 = x \/ x1 = sendN T p (MNot p) x) /\ exists u v, fst (fedReg T C p c f x) = set_upP u (set_feds v x1).
Proof.
  unfold fedReg. destruct (_ && _); [left; reflexivity|]. destruct (op x && _); [left; reflexivity|]. right.
  set (x1 := if negb _ && _ && _ then _ else _). exists x1. split; [subst x1; destruct (negb _ && _ && _); [right|left]; reflexivity|]. clearbody x1.
  destruct (existsb _ _); [exists (upP x1), (feds x1); destruct x1; reflexivity|].
  destruct (_ =? _); cbn [fst]; [exists (upP x1), (feds x1 ++ [mkFent f c (negb (c_hidden C f))]); destruct x1; reflexivity|eexists; eexists; reflexivity].
Qed.

(** ready, of a node's state *)
Definition readyN (n : nat) (x : nd) : Prop := if t_core T n then cst x <> Conn else asked x = true.
Lemma readyN_same n x y : asked y = asked x -> cst y = cst x -> readyN n x -> readyN n y.
Proof. unfold readyN. intros E1 E2. rewrite E1, E2. exact (fun h => h). Qed.

Definition inv (s : gs) : Prop :=
  (forall n, plainNode (nodes s n)) /\ (forall n, nodeInv (ready s) (hasAsked s) n (nodes s n)) /\
  (forall n, dn (nodes s n) <> [] -> ready s root) /\
  (forall f, (forall i, In i (f_in (fds s f)) -> i = false) /\ (f_in (fds s f) <> [] \/ f_done (fds s f) = true -> ready s root)).

Lemma plain_sendN n m x : plainNode x -> (m <> MInit true) -> plainNode (sendN T n m x).
Proof.
  intros [A [B [D [E [F [G H]]]]]] N. destruct (sendN_facts T n m x) as [_ [F2 [_ [F4 [_ [_ [F7 [_ [F9 [F10 [_ [F12 _]]]]]]]]]]]].
  unfold plainNode. rewrite F2, F4, F7, F9, F10, F12. repeat (split; [assumption|]). split; [|assumption].
  intros i I. apply sendN_in in I as [I|I]; [apply G; exact I|]. subst m. destruct i; [congruence|reflexivity].
Qed.
Lemma plain_same x y : plainNode x -> it y = it x -> its y = its x -> ents y = ents x -> cfeds y = cfeds x -> cq y = cq x ->
  (forall i, In (MInit i) (upN y) -> In (MInit i) (upN x)) -> (forall i, In i (dn y) -> In i (dn x)) -> plainNode y.
Proof.
  intros [A [B [D [E [F [G H]]]]]] E1 E2 E3 E4 E5 E6 E7. unfold plainNode. rewrite E1, E2, E3, E4, E5. repeat (split; [assumption|]). split; intros i I; [apply G, E6, I|apply H, E7, I].
Qed.
Lemma plain_ask x : plainNode x -> plainNode (coreAsk false x).
Proof.
  intros H. destruct (coreAsk_facts false x) as [_ [F2 [_ [F4 [_ [F6 [_ [F8 [F9 [_ [F11 _]]]]]]]]]]].
  destruct H as [A [B [D [E [F [G K]]]]]]. unfold plainNode. rewrite F2, F4, F6, F8, F9, F11. repeat (split; [assumption|]). split; [|assumption].
  intros i I. unfold coreAsk in I. destruct (cst x); [|apply G; exact I..]. cbn [set_cst acked upN] in I. destruct (acked x); [|apply G; exact I].
  fields. apply in_app_or in I as [I|[I|[]]]; [apply G; exact I|]. congruence.
Qed.
Lemma plain_iter x : plainNode x -> plainNode (iterState x).
Proof.
  intros [A [B [D [E [F [G H]]]]]]. unfold plainNode, iterState. fields. split; [reflexivity|]. split; [assumption|]. split; [|repeat split; assumption].
  intros e I. apply in_map_iff in I as [e0 [<- I]]. destruct (e_local e0 && e_it e0); [reflexivity|apply D; exact I].
Qed.

(** one step at one node: the flags of iterations stay down *)
Lemma nstep_plain s e n x : (forall f, e <> ERequest f true) -> (forall k, plainNode (nodes s k)) -> nstep T C s e n x -> plainNode x.
Proof.
  intros NI H N. destruct N as [e n|n J|n f K A F|n p m r P U J G|c n k r P U J G|c n f r P U J G|n p m r P U|c n i r P U|c n src r P U|n i r K D|n i r K D|n p K I P A|n p K I P A|n f i F1 F2 F3 F4 F5|n f i r K Q|n|n K J|n K J]; pose proof (H n) as Hn.
  - exact Hn.
  - apply (plain_same _ _ Hn); reflexivity || (intros; assumption).
  - unfold coreReg. destruct (c_hidden C f); [apply (plain_same _ _ Hn); reflexivity || (intros; assumption)|].
    destruct Hn as [A1 [B [D [E [G [L M]]]]]]. unfold plainNode. fields. repeat (split; [assumption|]). split; [|split; [assumption|split; assumption]].
    intros q I. apply in_app_or in I as [I|[<-|[]]]; [apply E; exact I|reflexivity].
  - apply (plain_same _ _ Hn); reflexivity || (intros; assumption).
  - destruct (brokerReg_shape (c_lim C n) n c k (nodes s n)) as [->|[x1 [X [_ Y]]]]; [exact Hn|].
    assert (plainNode x1) as H1 by (destruct X as [->| ->]; [exact Hn|apply plain_sendN; [exact Hn|discriminate]]).
    assert (ents x1 = ents (nodes s n)) as E1 by (destruct X as [->| ->]; [reflexivity|apply sendN_facts]).
    destruct Y as [->|[_ [u ->]]]; [exact H1|]. destruct H1 as [A1 [B [D [E [L [M O]]]]]]. unfold plainNode. fields. repeat (split; [assumption|]). split; [|repeat (split; [assumption|]); assumption].
    intros e' I. apply in_app_or in I as [I|[<-|[]]]; [apply D; rewrite E1; exact I|reflexivity].
  - destruct (fedReg_shape n c f (nodes s n)) as [->|[x1 [X [u [v ->]]]]]; [exact Hn|].
    assert (plainNode x1) as H1 by (destruct X as [->| ->]; [exact Hn|apply plain_sendN; [exact Hn|discriminate]]).
    apply (plain_same _ _ H1); reflexivity || (intros; assumption).
  - apply (plain_same _ _ Hn); try reflexivity; [|intros; assumption]. fields. intros i I. rewrite U. right. exact I.
  - assert (i = false) as -> by (destruct (H c) as [_ [_ [_ [_ [_ [G _]]]]]]; apply G; rewrite U; left; reflexivity).
    unfold brokerInit. destruct (findE _ _); [|exact Hn]. set (x1 := set_ents _ _).
    assert (plainNode x1) as H1.
    { destruct Hn as [A [B [D [E [F [G K]]]]]]. subst x1. unfold plainNode. fields. rewrite A. split; [reflexivity|]. split; [assumption|]. split; [|repeat split; assumption].
      intros e' I. apply in_updE in I as [e0 [I ->]]. destruct (_ =? _); fields; [rewrite (D _ I); reflexivity|apply D; exact I]. }
    clearbody x1. destruct (readyB _ _ _); [|exact H1]. destruct (_ =? _).
    + destruct (it x1); cbn [fst]; [apply plain_iter; exact H1|apply (plain_same _ _ H1); reflexivity || (intros; assumption)].
    + cbn [fst]. apply plain_sendN; [apply (plain_same _ _ H1); reflexivity || (intros; assumption)|]. destruct H1 as [-> _]. discriminate.
  - unfold brokerNot. destruct (_ && _); [exact Hn|]. set (x1 := if readyB _ _ _ then _ else _).
    assert (plainNode x1) as H1 by (subst x1; destruct (readyB _ _ _); [apply plain_sendN; [exact Hn|discriminate]|exact Hn]). clearbody x1.
    destruct H1 as [A [B [D [E [F [G K]]]]]]. unfold plainNode. fields. repeat (split; [assumption|]). split; [|repeat (split; [assumption|]); assumption].
    intros e' I. apply in_updE in I as [e0 [I ->]]. destruct (_ =? _); fields; [reflexivity|apply D; exact I].
  - assert (plainNode (set_dn r (nodes s n))) as H1 by (apply (plain_same _ _ Hn); try reflexivity; fields; [intros; assumption|intros j I; rewrite D; right; exact I]).
    assert (i = false) as -> by (destruct Hn as [_ [_ [_ [_ [_ [_ G]]]]]]; apply G; rewrite D; left; reflexivity).
    unfold coreGrant. destruct (cst _); cbn [fst]; [exact H1|apply (plain_same _ _ H1); reflexivity || (intros; assumption)|exact H1].
  - assert (plainNode (set_dn r (nodes s n))) as H1 by (apply (plain_same _ _ Hn); try reflexivity; fields; [intros; assumption|intros j I; rewrite D; right; exact I]).
    assert (i = false) as -> by (destruct Hn as [_ [_ [_ [_ [_ [_ G]]]]]]; apply G; rewrite D; left; reflexivity).
    cbn [brokerGrant fst]. apply (plain_same _ _ H1); reflexivity || (intros; assumption).
  - unfold coreAck. assert (plainNode (set_acked true (nodes s n))) as H1 by (apply (plain_same _ _ Hn); reflexivity || (intros; assumption)).
    destruct (_ && readyC _ _); [|exact H1]. replace (its (set_acked true (nodes s n))) with false by (symmetry; exact (proj1 (proj2 H1))). apply plain_ask. exact H1.
  - apply (plain_same _ _ Hn); reflexivity || (intros; assumption).
  - destruct i; [destruct (NI f); reflexivity|]. unfold coreRequest. destruct Hn as [A [B [D [E [L [M O]]]]]]. unfold plainNode. fields. repeat (split; [assumption|]). split; [|split; assumption].
    intros g i I. apply in_app_or in I as [I|[I|[]]]; [apply (L _ _ I)|congruence].
  - assert (i = false) as -> by (destruct Hn as [_ [_ [_ [_ [F _]]]]]; apply (F f); rewrite Q; left; reflexivity).
    assert (plainNode (set_cq r (nodes s n))) as H1.
    { destruct Hn as [A [B [D [E [L [M O]]]]]]. unfold plainNode. fields. repeat (split; [assumption|]). split; [|split; assumption]. intros g i I. apply (L g). rewrite Q. right. exact I. }
    unfold coreInit. destruct (hasC _ _); [|exact H1]. set (x1 := set_cfeds _ _).
    assert (plainNode x1) as H2.
    { destruct H1 as [A [B [D [E [L [M O]]]]]]. subst x1. unfold plainNode. fields. repeat (split; [assumption|]). split; [|repeat (split; [assumption|]); assumption].
      intros q I. apply in_updC in I as [q0 [I ->]]. destruct (_ =? _); fields; apply E; exact I. }
    clearbody x1. destruct (readyC _ _); [|exact H2]. replace (its x1) with false by (symmetry; exact (proj1 (proj2 H2))). apply plain_ask. exact H2.
  - apply (plain_same _ _ Hn); reflexivity || (intros; assumption).
  - unfold coreEnable. set (x1 := set_delay _ _). assert (plainNode x1) as H1 by (apply (plain_same _ _ Hn); reflexivity || (intros; assumption)). clearbody x1.
    destruct (_ && _); [apply plain_ask|]; exact H1.
  - apply (plain_same _ _ Hn); reflexivity || (intros; assumption).
Qed.

Lemma updE_local l n st it' e : In e (updE l n (fun e => setSt st (it' e) e)) -> exists e0, In e0 l /\ e_id e = e_id e0 /\ e_local e = e_local e0 /\ e_late e = e_late e0 /\
  (e_st e = e_st e0 \/ (e_id e0 = n /\ e_st e = st)).
Proof.
  intros I. apply in_updE in I as [e0 [I ->]]. exists e0. split; [exact I|]. destruct (e_id e0 =? n) eqn:E; fields; repeat (split; [reflexivity|]); [right|left; reflexivity].
  apply Nat.eqb_eq in E. split; [exact E|reflexivity].
Qed.

(** without iterations, a node which reported ready stays so *)
Lemma nstep_ready s e n x : (forall k, plainNode (nodes s k)) -> nstep T C s e n x -> readyN n (nodes s n) -> readyN n x.
Proof.
  assert (forall i y, asked (coreAsk i y) = asked y) as CA by (intros; apply coreAsk_facts).
  assert (forall i y, readyN n y -> readyN n (coreAsk i y)) as CR.
  { intros i y. unfold readyN. rewrite CA. destruct (t_core T n); [|exact (fun h => h)]. intros _. apply coreAsk_ready. }
  intros H N. destruct N as [e n|n J|n f K A F|n p m r P U J G|c n k r P U J G|c n f r P U J G|n p m r P U|c n i r P U|c n src r P U|n i r K D|n i r K D|n p K I P A|n p K I P A|n f i F1 F2 F3 F4 F5|n f i r K Q|n|n K J|n K J]; pose proof (H n) as Hn; intros R; try exact R.
  - apply (readyN_same n (nodes s n)); [..|exact R]; unfold coreReg; destruct (c_hidden C f); reflexivity.
  - destruct (brokerReg_shape (c_lim C n) n c k (nodes s n)) as [->|[x1 [X [_ Y]]]]; [exact R|].
    assert (readyN n x1) as R1 by (destruct X as [->| ->]; [exact R|]; apply (readyN_same n (nodes s n)); [apply sendN_facts|apply sendN_facts|exact R]).
    destruct Y as [->|[_ [u ->]]]; exact R1.
  - destruct (fedReg_shape n c f (nodes s n)) as [->|[x1 [X [u [v ->]]]]]; [exact R|].
    assert (readyN n x1) as R1 by (destruct X as [->| ->]; [exact R|]; apply (readyN_same n (nodes s n)); [apply sendN_facts|apply sendN_facts|exact R]). exact R1.
  - assert (i = false) as -> by (destruct (H c) as [_ [_ [_ [_ [_ [G _]]]]]]; apply G; rewrite U; left; reflexivity).
    unfold brokerInit. destruct (findE _ _); [|exact R]. set (x1 := set_ents _ _). assert (readyN n x1) as R1 by exact R.
    assert (it x1 = false) as I1 by (subst x1; fields; rewrite (proj1 Hn); reflexivity). clearbody x1.
    destruct (readyB _ _ _); [|exact R1]. rewrite I1. unfold readyN in *. rewrite (parent_not_core T HT _ _ P) in *. destruct (_ =? _); cbn [fst].
    + reflexivity.
    + replace (asked (sendN T n (MInit false) (set_asked true x1))) with (asked (set_asked true x1)) by (symmetry; apply sendN_facts). reflexivity.
  - unfold brokerNot. destruct (_ && _); [exact R|]. destruct (readyB _ _ _); [|exact R].
    apply (readyN_same n (nodes s n)); [| |exact R]; fields; apply sendN_facts.
  - assert (i = false) as -> by (destruct Hn as [_ [_ [_ [_ [_ [_ G]]]]]]; apply G; rewrite D; left; reflexivity).
    unfold readyN in *. rewrite K in *. unfold coreGrant. destruct (cst (set_dn r (nodes s n))) eqn:CS; cbn [fst]; [exact R|discriminate|exact R].
  - assert (i = false) as -> by (destruct Hn as [_ [_ [_ [_ [_ [_ G]]]]]]; apply G; rewrite D; left; reflexivity). exact R.
  - unfold coreAck. destruct (_ && readyC _ _); [apply CR|]; exact R.
  - unfold coreRequest. destruct i; exact R.
  - unfold coreInit. destruct (hasC _ _); [|exact R]. destruct (readyC _ _); [apply CR|]; exact R.
  - unfold coreEnable. destruct (_ && readyC _ _); [apply CR|]; exact R.
Qed.
Lemma ready_step s e k : (forall k, plainNode (nodes s k)) -> ready s k -> ready (step T C s e) k.
Proof.
  intros H R. destruct (step_node T C HT s e k) as [x [d [E [N _]]]].
  assert (readyN k x) as X by (apply (nstep_ready _ _ _ _ H N); exact R). unfold ready. rewrite E. exact X.
Qed.
Lemma hasAsked_step s e f : (forall f i, In i (f_in (fds s f)) -> i = false) -> hasAsked s f -> hasAsked (step T C s e) f.
Proof.
  intros H A. unfold hasAsked in *. destruct (step_fed T C s e f) as [e f|c f|f|c f i F1 F2 F3 F4 F5|f i r W I|c i r f K D]; fields; try exact A.
  - left. reflexivity.
  - right. assert (i = false) as -> by (apply (H f); rewrite I; left; reflexivity). reflexivity.
Qed.

Lemma nstep_inv s e n x (R Q : nat -> Prop) :
  (forall k, plainNode (nodes s k)) -> (forall k, nodeInv R Q k (nodes s k)) ->
  (forall f i, e = ERequest f i -> f_core (fds s f) = Some n -> f_ack (fds s f) = true -> f_wait (fds s f) = false -> f_done (fds s f) = false ->
     c_hidden C f = false -> Q f) -> (readyN n x -> R n) ->
  nstep T C s e n x -> nodeInv R Q n x.
Proof.
  intros PL H HQ HR N.
  destruct N as [e n|n J|n f K A F|n p m r P U J G|c n k r P U J G|c n f r P U J G|n p m r P U|c n i r P U|c n src r P U|n i r K D|n i r K D|n p K I P A|n p K I P A|n f i F1 F2 F3 F4 F5|n f i r K Qe|n|n K J|n K J]; pose proof (H n) as Hn; pose proof (PL n) as Pn.
  - exact Hn.
  - apply (nodeInv_same _ _ _ _ _ Hn); reflexivity.
  - unfold coreReg. destruct (c_hidden C f); [apply (nodeInv_same _ _ _ _ _ Hn); reflexivity|].
    destruct Hn as [A1 [B [D [E G]]]]. unfold nodeInv. fields. split; [assumption|]. split; [assumption|]. split; [|split; [|assumption]].
    + intros X q I L. apply in_app_or in I as [I|[<-|[]]]; [apply (D X q I L)|]. fields. destruct (cst (nodes s n)); [congruence|discriminate..].
    + intros q I X. apply in_app_or in I as [I|[<-|[]]]; [apply (E q I X)|]. discriminate.
  - apply (nodeInv_same _ _ _ _ _ Hn); reflexivity.
  - destruct (brokerReg_shape (c_lim C n) n c k (nodes s n)) as [E|[x1 [X [_ Y]]]]; [rewrite E in *; exact Hn|].
    assert (nodeInv R Q n x1 /\ ents x1 = ents (nodes s n) /\ asked x1 = asked (nodes s n)) as [H1 [E1 E2]].
    { destruct X as [->| ->]; [split; [exact Hn|split; reflexivity]|]. split; [|split; apply sendN_facts].
      destruct (sendN_facts T n (MNot n) (nodes s n)) as [_ [_ [S3 [S4 [_ [S6 [_ [_ [S9 [S10 _]]]]]]]]]].
      destruct Hn as [A1 B1]. unfold nodeInv. rewrite S3, S4, S6, S9, S10. split; [|exact B1]. intros i I. apply sendN_in in I as [I|I]; [apply (A1 i I)|discriminate]. }
    destruct Y as [->|[FN [u ->]]]; [exact H1|]. destruct H1 as [A1 [B [D [E L]]]]. unfold nodeInv. fields. split; [assumption|]. split; [|repeat (split; [assumption|]); assumption].
    intros e' I L'. rewrite E2 in *. apply in_app_or in I as [I|[<-|[]]]; [rewrite <- E1 in I; apply (B e' I L')|]. fields.
    apply Nat.eqb_eq in L'. subst k. split; [exact P|]. split; [discriminate|congruence].
  - destruct (fedReg_shape n c f (nodes s n)) as [E|[x1 [X [u [v E]]]]]; rewrite E in *; [exact Hn|].
    destruct X as [->| ->]; [apply (nodeInv_same _ _ _ _ _ Hn); reflexivity|].
    destruct (sendN_facts T n (MNot n) (nodes s n)) as [_ [_ [S3 [S4 [_ [S6 [_ [_ [S9 [S10 _]]]]]]]]]].
    destruct Hn as [A1 B1]. unfold nodeInv. fields. rewrite S3, S4, S6, S9, S10. split; [|exact B1]. intros i I. apply sendN_in in I as [I|I]; [apply (A1 i I)|discriminate].
  - destruct Hn as [A1 B1]. unfold nodeInv. fields. split; [|exact B1]. intros i I. apply (A1 i). rewrite U. right. exact I.
  - assert (R c) as Rc by (destruct (H c) as [A1 _]; apply (A1 i); rewrite U; left; reflexivity).
    assert (i = false) as -> by (destruct (PL c) as [_ [_ [_ [_ [_ [G _]]]]]]; apply G; rewrite U; left; reflexivity).
    revert HR. unfold brokerInit. destruct (findE _ _); [|intros _; exact Hn]. set (x1 := set_ents _ _).
    assert (nodeInv R Q n x1) as H1.
    { destruct Hn as [A1 [B B1]]. subst x1. unfold nodeInv. fields. split; [exact A1|]. split; [|exact B1].
      intros e' I L. apply updE_local in I as [e0 [I [I1 [I2 [I3 I4]]]]]. rewrite I1, I3. rewrite I2 in L. destruct (B e0 I L) as [B2 [B3 B4]]. split; [exact B2|]. split; [|exact B4].
      intros ST. destruct I4 as [I4|[I4 _]]; [apply B3; congruence|]. rewrite I4. exact Rc. }
    assert (it x1 = false) as I1 by (subst x1; fields; rewrite (proj1 Pn); reflexivity). clearbody x1.
    destruct (readyB _ _ _) eqn:RB; [|intros _; exact H1]. rewrite I1. apply readyB_iff in RB as [_ RB]. apply allRequested_iff in RB as [_ RB].
    assert (forall y, upN y = upN x1 -> ents y = ents x1 -> cst y = cst x1 -> cfeds y = cfeds x1 -> cq y = cq x1 -> nodeInv R Q n y) as Y.
    { intros y Y1 Y2 Y3 Y4 Y5. destruct H1 as [A1 [B B1]]. unfold nodeInv. rewrite Y1, Y2, Y3, Y4, Y5. split; [exact A1|]. split; [|exact B1].
      intros e' I L. destruct (B e' I L) as [B2 [B3 B4]]. split; [exact B2|]. split; [exact B3|]. intros _ _. apply B3, RB; assumption. }
    destruct (_ =? _) eqn:RT; cbn [fst]; intros HR; [apply Y; reflexivity|].
    assert (R n) as Rn. { apply HR. unfold readyN. rewrite (parent_not_core T HT _ _ P). replace (asked (sendN T n (MInit false) (set_asked true x1))) with (asked (set_asked true x1)) by (symmetry; apply sendN_facts). reflexivity. }
    destruct (Y (set_asked true x1)) as [A1 B1]; try reflexivity.
    destruct (sendN_facts T n (MInit false) (set_asked true x1)) as [_ [_ [S3 [S4 [_ [S6 [_ [_ [S9 [S10 _]]]]]]]]]].
    unfold nodeInv. rewrite S3, S4, S6, S9, S10. split; [|exact B1]. intros; exact Rn.
  - unfold brokerNot. destruct (_ && _); [exact Hn|]. set (x1 := if readyB _ _ _ then _ else _).
    assert (nodeInv R Q n x1) as H1.
    { subst x1. destruct (readyB _ _ _); [|exact Hn]. destruct (sendN_facts T n (MNot src) (nodes s n)) as [_ [_ [S3 [S4 [_ [S6 [_ [_ [S9 [S10 _]]]]]]]]]].
      destruct Hn as [A1 B1]. unfold nodeInv. rewrite S3, S4, S6, S9, S10. split; [|exact B1]. intros i I. apply sendN_in in I as [I|I]; [apply (A1 i I)|discriminate]. }
    clearbody x1. destruct H1 as [A1 [B B1]]. unfold nodeInv. fields. split; [exact A1|]. split; [|exact B1].
    intros e' I L. apply (updE_local _ _ false (fun _ => false)) in I as [e0 [I [I1 [I2 [I3 I4]]]]]. rewrite I1, I3. rewrite I2 in L. destruct (B e0 I L) as [B2 [B3 B4]]. split; [exact B2|]. split; [|exact B4].
    intros ST. destruct I4 as [I4|[_ I4]]; [apply B3; congruence|congruence].
  - assert (i = false) as -> by (destruct Pn as [_ [_ [_ [_ [_ [_ G]]]]]]; apply G; rewrite D; left; reflexivity).
    unfold coreGrant. destruct (cst (set_dn r (nodes s n))) eqn:CS; cbn [fst]; try (apply (nodeInv_same _ _ _ _ _ Hn); reflexivity).
    destruct Hn as [A1 [B [D1 B1]]]. unfold nodeInv. fields. split; [exact A1|]. split; [exact B|]. split; [|exact B1]. intros _. apply D1. congruence.
  - assert (i = false) as -> by (destruct Pn as [_ [_ [_ [_ [_ [_ G]]]]]]; apply G; rewrite D; left; reflexivity).
    apply (nodeInv_same _ _ _ _ _ Hn); reflexivity.
  - revert HR. unfold coreAck. assert (nodeInv R Q n (set_acked true (nodes s n))) as H1 by (apply (nodeInv_same _ _ _ _ _ Hn); reflexivity).
    destruct (_ && readyC _ _) eqn:RC; [|intros _; exact H1]. intros HR. apply andb_true_iff in RC as [_ RC].
    apply nodeInv_ask; [|apply (readyC_trans _ _ RC)|exact H1]. apply HR. unfold readyN. rewrite K. apply coreAsk_ready.
  - apply (nodeInv_same _ _ _ _ _ Hn); reflexivity.
  - assert (Q f) as Qf by (apply (HQ f i); reflexivity || assumption). unfold coreRequest.
    assert (nodeInv R Q n (if i then set_its true (set_cfeds (updC (cfeds (nodes s n)) f (fun q => mkCf (q_id q) (q_trans q) true (q_late q))) (nodes s n)) else nodes s n)) as [A1 [B [D1 [E1 G1]]]].
    { destruct i; [|exact Hn]. destruct Hn as [A1 [B [D1 [E1 G1]]]]. unfold nodeInv. fields. split; [exact A1|]. split; [exact B|]. split; [|split; [|exact G1]].
      - intros X q I L. apply in_updC in I as [q0 [I ->]]. destruct (_ =? _); fields; apply (D1 X q0 I L).
      - intros q I X. apply in_updC in I as [q0 [I ->]]. destruct (_ =? _); fields; apply (E1 q0 I X). }
    unfold nodeInv. fields. split; [exact A1|]. split; [exact B|]. split; [exact D1|]. split; [exact E1|].
    intros g j I. apply in_app_or in I as [I|[I|[]]]; [apply (G1 g j I)|]. injection I as <- _. exact Qf.
  - assert (Q f) as Qf by (destruct Hn as [_ [_ [_ [_ G1]]]]; apply (G1 f i); rewrite Qe; left; reflexivity).
    assert (nodeInv R Q n (set_cq r (nodes s n))) as H0.
    { destruct Hn as [A1 [B [D1 [E1 G1]]]]. unfold nodeInv. fields. split; [exact A1|]. split; [exact B|]. split; [exact D1|]. split; [exact E1|].
      intros g j I. apply (G1 g j). rewrite Qe. right. exact I. }
    revert HR. unfold coreInit. destruct (hasC _ _); [|intros _; exact H0]. set (x1 := set_cfeds _ _).
    assert (nodeInv R Q n x1) as H1.
    { destruct H0 as [A1 [B [D1 [E1 G1]]]]. subst x1. unfold nodeInv. fields. split; [exact A1|]. split; [exact B|]. split; [|split; [|exact G1]].
      - intros X q I L. apply in_updC in I as [q0 [I ->]]. destruct (_ =? _); fields; [reflexivity|apply (D1 X q0 I L)].
      - intros q I X. apply in_updC in I as [q0 [I ->]]. destruct (q_id q0 =? f) eqn:E; fields; [apply Nat.eqb_eq in E; rewrite E; exact Qf|apply (E1 q0 I X)]. }
    clearbody x1. destruct (readyC _ _) eqn:RC; [|intros _; exact H1]. intros HR.
    apply nodeInv_ask; [|apply (readyC_trans _ _ RC)|exact H1]. apply HR. unfold readyN. rewrite K. apply coreAsk_ready.
  - apply (nodeInv_same _ _ _ _ _ Hn); reflexivity.
  - revert HR. unfold coreEnable. set (x1 := set_delay _ _). assert (nodeInv R Q n x1) as H1 by (apply (nodeInv_same _ _ _ _ _ Hn); reflexivity). clearbody x1.
    destruct (_ && readyC _ _) eqn:RC; [|intros _; exact H1]. intros HR. apply andb_true_iff in RC as [_ RC].
    apply nodeInv_ask; [|apply (readyC_trans _ _ RC)|exact H1]. apply HR. unfold readyN. rewrite K. apply coreAsk_ready.
  - apply (nodeInv_same _ _ _ _ _ Hn); reflexivity.
Qed.

Lemma inv_step s e : (forall f, e <> ERequest f true) -> inv s -> inv (step T C s e).
Proof.
  intros NI [PL [NV [DN FV]]].
  assert (forall k, ready s k -> ready (step T C s e) k) as MR by (intros k; apply ready_step; exact PL).
  assert (forall f, hasAsked s f -> hasAsked (step T C s e) f) as MQ by (intros f; apply hasAsked_step; intros g; apply FV).
  assert (forall n b, In b (dn (nodes (step T C s e) n)) -> b = false /\ ready (step T C s e) root) as DS.
  { intros n b I. destruct (step_node T C HT s e n) as [x [d [E [N S]]]]. rewrite E in I. fields. apply in_app_or in I as [I|I].
    - apply (nstep_dn _ _ _ _ _ N) in I. split; [apply (PL n); exact I|apply MR, (DN n)]. intros Z. rewrite Z in I. destruct I.
    - destruct S as [| c p i r n P U |p i r n K D]; [destruct I| |].
      + apply to_in in I. assert (i = false) as -> by (destruct (PL c) as [_ [_ [_ [_ [_ [G _]]]]]]; apply G; rewrite U; left; reflexivity).
        pose proof I as I'. destruct (brokerInit_out _ _ _ _ _ _ _ I) as [-> [x1 [R [G [B X]]]]].
        assert (it x1 = false) as IT by (subst x1; fields; rewrite (proj1 (PL root)); reflexivity). split; [congruence|].
        unfold ready. destruct HT as [_ [RC _]]. rewrite RC. cbn [step]. rewrite P, U. cbv zeta. pose proof (parent_neq T HT _ _ P) as PN.
        replace (nodes (setN c (set_upN r (nodes s c)) s) root) with (nodes s root) by (unfold setN; cbn [nodes set_nodes]; rewrite put_neq by exact PN; reflexivity).
        revert I'. unfold brokerInit. destruct (findE _ _); [|intros []]. rewrite <- X, R, IT. rewrite Nat.eqb_refl. intros _.
        rewrite sendDown_nodes. unfold setN. cbn [nodes set_nodes]. rewrite put_eq. reflexivity.
      + apply to_in in I. assert (i = false) as -> by (destruct (PL p) as [_ [_ [_ [_ [_ [_ G]]]]]]; apply G; rewrite D; left; reflexivity).
        unfold brokerGrant, finalOut in I. cbn [snd] in I. apply in_map_iff in I as [e' [I _]]. split; [congruence|]. apply MR, (DN p). congruence. }
  split; [|split; [|split]].
  - intros n. destruct (step_node T C HT s e n) as [x [d [E [N S]]]]. pose proof (nstep_plain _ _ _ _ NI PL N) as [A [B [D [E' [F [G H]]]]]].
    assert (forall i, In i (dn (nodes (step T C s e) n)) -> i = false) as K by (intros i I; apply (DS n i I)). rewrite E in *.
    unfold plainNode. fields. repeat (split; [assumption|]). exact K.
  - intros n. destruct (step_node T C HT s e n) as [x [d [E [N S]]]].
    assert (nodeInv (ready (step T C s e)) (hasAsked (step T C s e)) n x) as H.
    { apply (nstep_inv s e n x); [exact PL| | | |exact N].
      - intros k. apply (nodeInv_mono (ready s) (hasAsked s)); [exact MR|exact MQ|apply NV].
      - intros f i -> F1 F2 F3 F4 F5. left. cbn [step]. rewrite F1, F2, F3, F4, F5. cbn [andb negb]. unfold setF. cbn [fds set_fds]. rewrite put_eq. reflexivity.
      - intros R. unfold ready. rewrite E. exact R. }
    rewrite E. apply (nodeInv_same _ _ _ _ _ H); reflexivity.
  - intros n D. destruct (dn (nodes (step T C s e) n)) as [|b r] eqn:Q; [congruence|]. apply (DS n b). rewrite Q. left. reflexivity.
  - intros f. destruct (FV f) as [F1 F2].
    destruct (step_fed T C s e f) as [e f|c f|f|c f i G1 G2 G3 G4 G5|f i r W I|c i r f K D]; fields;
      try (split; [exact F1|intros X; apply MR, F2, X]).
    + split; [intros j J; apply F1; rewrite I; right; exact J|]. intros _. apply MR, F2. left. congruence.
    + assert (i = false) as -> by (destruct (PL c) as [_ [_ [_ [_ [_ [_ G]]]]]]; apply G; rewrite D; left; reflexivity).
      split.
      * intros j J. apply in_app_or in J as [J|J]; [apply F1; exact J|]. apply to_in in J. unfold coreGrant in J.
        destruct (cst _); cbn [snd] in J; try destruct J. apply in_map_iff in J as [q [J _]]. congruence.
      * intros _. apply MR, (DN c). congruence.
Qed.
Lemma inv_run h : noIter h -> inv (run T C h).
Proof.
  induction h as [|e h IH] using rev_ind; intros NI.
  - unfold run. cbn [fold_left]. split; [|split; [|split]].
    + intros n. destruct (node0_empty n) as [_ [_ [E3 [E4 [E5 [E6 [E7 [_ [E9 [_ [_ E12]]]]]]]]]]]. unfold plainNode. rewrite E3, E4, E5, E6, E7, E9, E12.
      split; [reflexivity|]. split; [reflexivity|]. split; [intros e []|]. split; [intros q []|]. split; [intros f i []|]. split; intros i [].
    + intros n. destruct (node0_empty n) as [_ [_ [E3 [E4 [E5 [E6 [E7 _]]]]]]]. unfold nodeInv. rewrite E3, E4, E6, E7.
      split; [intros i []|]. split; [intros e []|]. split; [intros _ q []|]. split; [intros q []|intros f i []].
    + intros n D. destruct (node0_empty n) as [_ [_ [_ [_ [E5 _]]]]]. congruence.
    + intros f. unfold gs0. cbn. split; [intros i []|]. intros [X|X]; [congruence|discriminate].
  - rewrite run_snoc. apply inv_step.
    + intros f ->. apply (NI f). apply in_or_app. right. left. reflexivity.
    + apply IH. intros f I. apply (NI f). apply in_or_app. left. exact I.
Qed.

(** a node which joined before its parent had reported ready, and whose parent did, up to the root *)
Inductive inTime (s : gs) : nat -> Prop :=
| inTime_root : inTime s root
| inTime_child p e : inTime s p -> In e (ents (nodes s p)) -> e_local e = true -> e_late e = false -> inTime s (e_id e).
(** the federate f registered with the core c before c had reported ready *)
Definition fedInTime (s : gs) (c f : nat) : Prop := exists q, In q (cfeds (nodes s c)) /\ q_id q = f /\ q_late q = false.

Lemma inTime_ready s n : inv s -> ready s root -> inTime s n -> ready s n.
Proof.
  intros [_ [NV _]] R. induction 1 as [|p e H IH I L LT]; [exact R|]. destruct (NV p) as [_ [B _]]. destruct (B e I L) as [P [_ B3]].
  apply B3; [|exact LT]. unfold ready in IH. rewrite (parent_not_core T HT _ _ P) in IH. exact IH.
Qed.

(** C45: without iterations, a federate is let into initializing mode only when every federate which registered in time, with a
    core which joined in time, has called enterInitializingMode *)
Theorem C45_nobody_starts_before_everyone_asked h f c g : noIter h ->
  returns (run T C h) f false \/ f_done (fds (run T C h) f) = true ->
  inTime (run T C h) c -> t_core T c = true -> fedInTime (run T C h) c g -> hasAsked (run T C h) g.
Proof.
  intros NI R IT K [q [I [<- L]]]. pose proof (inv_run h NI) as H. pose proof H as [_ [NV [_ FV]]].
  assert (ready (run T C h) root) as RR by (apply (FV f); destruct R as [[_ [r E]]|R]; [left; congruence|right; exact R]).
  pose proof (inTime_ready _ _ H RR IT) as RC. unfold ready in RC. rewrite K in RC.
  destruct (NV c) as [_ [_ [D [E _]]]]. apply (E q I). apply (D RC q I L).
Qed.
End Props.
