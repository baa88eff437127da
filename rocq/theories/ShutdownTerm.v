(** * C46: the commands come to an end *)
From Coq Require Import ZArith Bool List Lia.
From Verif Require Import Route Shutdown PropsShutdown ShutdownLive ShutdownEnd.
Import ListNotations.
Open Scope nat_scope.

(** ** Specification *)
(** the federation has finitely many cores, brokers and federates *)
Definition finite (T : topology) (N : fedn) : Prop :=
  exists ms fs, (forall n, member T N n -> In n ms) /\ (forall c f, member T N c -> In f (feds N c) -> In f fs).
(** from s the events es can follow each other, each of them processes a command *)
Inductive works (T : topology) (N : fedn) : gs -> list event -> Prop :=
| works_nil s : works T N s []
| works_cons s e es : internal e -> ofFederation T N e -> step T N s e <> s -> works T N (step T N s e) es -> works T N s (e :: es).

(** ** Sums *)
Fixpoint sum {A} (w : A -> nat) (l : list A) : nat := match l with [] => 0 | a :: r => w a + sum w r end.
Lemma sum_app {A} (w : A -> nat) l r : sum w (l ++ r) = sum w l + sum w r.
Proof. induction l as [|a l IH]; cbn; [reflexivity|]. rewrite IH. lia. Qed.
Lemma sum_le {A} (v w : A -> nat) l : (forall a, In a l -> v a <= w a) -> sum v l <= sum w l.
Proof. induction l as [|a l IH]; cbn; intros H; [lia|]. pose proof (H a (or_introl eq_refl)). specialize (IH (fun b i => H b (or_intror i))). lia. Qed.
Lemma sum_ext {A} (v w : A -> nat) l : (forall a, In a l -> v a = w a) -> sum v l = sum w l.
Proof. induction l as [|a l IH]; cbn; intros H; [reflexivity|]. rewrite (H a (or_introl eq_refl)), IH; [reflexivity|]. intros b i. apply H. right. exact i. Qed.
Lemma sum_plus {A} (v w : A -> nat) l : sum (fun a => v a + w a) l = sum v l + sum w l.
Proof. induction l as [|a l IH]; cbn; [reflexivity|]. rewrite IH. lia. Qed.
Lemma sum_filter {A} (w : A -> nat) p l : sum w (filter p l) <= sum w l.
Proof. induction l as [|a l IH]; cbn; [lia|]. destruct (p a); cbn; lia. Qed.
Lemma sum_map {A B} (w : B -> nat) (g : A -> B) l : sum w (map g l) = sum (fun a => w (g a)) l.
Proof. induction l as [|a l IH]; cbn; [reflexivity|]. rewrite IH. reflexivity. Qed.
Lemma sum_in {A} (w : A -> nat) a l : In a l -> w a <= sum w l.
Proof. induction l as [|b l IH]; intros [<-|I] || intros []; cbn; [lia|]. specialize (IH I). lia. Qed.
(** one value changes *)
Lemma sum_upd (v w : nat -> nat) l n : NoDup l -> In n l -> (forall k, k <> n -> v k = w k) -> sum v l + w n = sum w l + v n.
Proof.
  induction l as [|a l IH]; intros ND I E; [destruct I|]. inversion ND as [|? ? NI ND']; subst. cbn. destruct I as [->|I].
  - rewrite (sum_ext v w l); [lia|]. intros k J. apply E. intros ->. contradiction.
  - specialize (IH ND' I E). rewrite (E a); [lia|]. intros ->. contradiction.
Qed.
Lemma sum_upd_le (v w : nat -> nat) l n d : NoDup l -> (forall k, k <> n -> v k = w k) -> v n <= w n + d -> sum v l <= sum w l + d.
Proof.
  intros ND E D. destruct (in_dec Nat.eq_dec n l) as [I|I]; [pose proof (sum_upd v w l n ND I E); lia|]. rewrite (sum_ext v w l); [lia|]. intros k J. apply E. intros ->. contradiction.
Qed.
Lemma sum_to {A} (w : nat -> nat) (out : list (nat * A)) l : NoDup l -> sum (fun n => w n * length (to n out)) l <= sum (fun o => w (fst o)) out.
Proof.
  intros ND. induction out as [|[j a] out IH]; cbn [sum fst].
  - unfold to. cbn. clear ND. induction l as [|n l IH]; cbn; lia.
  - assert (sum (fun n => w n * length (to n ((j, a) :: out))) l <= sum (fun n => w n * length (to n out)) l + w j) as H; [|lia].
    apply (sum_upd_le _ _ l j); [exact ND| |].
    + intros k NE. unfold to. cbn. destruct (Nat.eqb_spec j k); [congruence|reflexivity].
    + unfold to. cbn. rewrite Nat.eqb_refl. cbn [map length]. rewrite Nat.mul_succ_r. lia.
Qed.

Section Term.
Context (T : topology) (N : fedn) (HT : tree T) (WF : wf T N).
Local Notation root := (t_root T).
Local Notation step := (step T N).
Context (ms fs : list nat) (NM : NoDup ms) (NF : NoDup fs) (MS : forall n, member T N n -> In n ms) (FS : forall c f, member T N c -> In f (feds N c) -> In f fs).
(** the weight of a command from the parent, and to the parent *)
Context (wD uW : nat -> nat) (U : nat).
Context (HD : forall n, member T N n -> 1 + sum wD (kids N n) + length (feds N n) <= wD n).
Context (HU : forall p k, member T N p -> In k (kids N p) -> 1 + uW p + 2 * sum wD (kids N p) <= uW k).
Context (HB : forall n, member T N n -> uW n <= U).

Definition kW (m : kmsg) : nat := match m with KReq _ => 2 | KDisc _ => 2 + U end.
Definition rW (n : nat) (r : rstate) : nat := match r with Run => 2 + 2 * uW n + length (feds N n) | Term => 1 + uW n | Stop => 0 end.
Definition nW (n : nat) (x : nd) : nat := sum kW (cq x) + uW n * length (up x) + wD n * length (dn x) + rW n (rs x).
Definition fW (y : fd) : nat := length (fq y) + match fst_ y with Act => 2 + U | _ => 0 end.
Definition mu (s : gs) : nat := sum (fun n => nW n (nodes s n)) ms + sum (fun f => fW (fds s f)) fs.

Lemma mu_setN n x s d : nW n x <= nW n (nodes s n) + d -> mu (setN n x s) <= mu s + d.
Proof.
  intros H. unfold mu. rewrite setN_fds. assert (sum (fun k => nW k (nodes (setN n x s) k)) ms <= sum (fun k => nW k (nodes s k)) ms + d); [|lia].
  apply (sum_upd_le _ _ ms n); [exact NM|intros k NE; rewrite setN_neq by exact NE; reflexivity|rewrite setN_eq; exact H].
Qed.
Lemma mu_setN_less n x s d : In n ms -> nW n x + d <= nW n (nodes s n) -> mu (setN n x s) + d <= mu s.
Proof.
  intros I H. unfold mu. rewrite setN_fds. pose proof (sum_upd (fun k => nW k (nodes (setN n x s) k)) (fun k => nW k (nodes s k)) ms n NM I) as E. cbv beta in E. rewrite setN_eq in E.
  specialize (E ltac:(intros k NE; rewrite setN_neq by exact NE; reflexivity)). lia.
Qed.
Lemma mu_setF_less f y s d : In f fs -> fW y + d <= fW (fds s f) -> mu (setF f y s) + d <= mu s.
Proof.
  intros I H. unfold mu. rewrite setF_nodes. pose proof (sum_upd (fun k => fW (fds (setF f y s) k)) (fun k => fW (fds s k)) fs f NF I) as E. cbv beta in E. rewrite setF_eq in E.
  specialize (E ltac:(intros k NE; rewrite setF_neq by exact NE; reflexivity)). lia.
Qed.
Lemma mu_sendD out s : mu (sendD out s) <= mu s + sum (fun o => wD (fst o)) out.
Proof.
  unfold mu. rewrite sendD_fds. pose proof (sum_to wD out ms NM) as H.
  rewrite (sum_ext (fun n => nW n (nodes (sendD out s) n)) (fun n => nW n (nodes s n) + wD n * length (to n out))).
  - rewrite sum_plus. lia.
  - intros n _. rewrite sendD_nd. unfold nW. fields. rewrite app_length. lia.
Qed.
Lemma mu_sendF out s : mu (sendF out s) <= mu s + length out.
Proof.
  unfold mu. rewrite sendF_nodes. pose proof (sum_to (fun _ => 1) out fs NF) as H.
  rewrite (sum_ext (fun f => fW (fds (sendF out s) f)) (fun f => fW (fds s f) + 1 * length (to f out))).
  - rewrite sum_plus. assert (sum (fun o : nat * fmsg => 1) out = length out) as E by (clear; induction out; cbn; [reflexivity|rewrite IHout; reflexivity]). lia.
  - intros f _. rewrite sendF_fd. unfold fW. fields. rewrite app_length. lia.
Qed.
Lemma toFeds_length c m s : length (toFeds N c m s) <= length (feds N c).
Proof. unfold toFeds. rewrite map_length. generalize (feds N c). clear. induction l as [|a l IH]; cbn; [lia|]. destruct (negb _); cbn; lia. Qed.
Lemma out_map (g : nat -> dmsg) (p : nat -> bool) l : sum (fun o : nat * dmsg => wD (fst o)) (map (fun k => (k, g k)) (filter p l)) <= sum wD l.
Proof. rewrite sum_map. cbn. apply (sum_filter wD). Qed.
Lemma check_W c x : nW c (check N c x) <= nW c x.
Proof. unfold check. destruct (_ && _) eqn:E; [|lia]. apply andb_true_iff in E as [E _]. apply isRun_iff in E. unfold nW. fields. rewrite E, app_length. cbn. lia. Qed.
Lemma coreGlobal_W c x : nW c (fst (coreGlobal x)) + (if snd (coreGlobal x) then 0 else 0) <= nW c x.
Proof. unfold coreGlobal. destruct (isRun (rs x)) eqn:E; cbn [fst snd]; [|unfold nW; fields; lia]. apply isRun_iff in E. unfold nW. fields. rewrite E, app_length. cbn. lia. Qed.

Lemma step_less s e : internal e -> ofFederation T N e -> step s e <> s -> mu (step s e) < mu s.
Proof.
  intros IN OF NE. destruct e as [f|f|c|k|n|n|c|n|n]; try (destruct IN; fail).
  - (* a federate *)
    destruct OF as [c [M J]]. assert (In f fs) as JF by (apply (FS c f M J)). assert (coreOf N f = c) as EC by (apply WF; exact J). cbn [Shutdown.step] in *. rewrite EC in *.
    destruct (isFin (fst_ (fds s f))) eqn:FF; [elim NE; reflexivity|]. destruct (fq (fds s f)) as [|m r] eqn:Q; [elim NE; reflexivity|]. clear NE.
    assert (forall st, (st = Fin \/ st = fst_ (fds s f)) -> mu (setF f (set_fst_ st (set_fq r (fds s f))) s) + 1 <= mu s) as G.
    { intros st E. apply mu_setF_less; [exact JF|]. unfold fW. fields. rewrite Q. cbn [length]. destruct E as [->| ->]; [destruct (fst_ (fds s f))|]; lia. }
    destruct m.
    + destruct (fst_ (fds s f)) eqn:ST; [|specialize (G Terming (or_intror eq_refl)); replace (set_fst_ Terming (set_fq r (fds s f))) with (set_fq r (fds s f)) in G; [lia|clear -ST; revert ST; destruct (fds s f); cbn; intros ST; subst; reflexivity]|discriminate].
      set (x := set_cq (cq (nodes s c) ++ [KDisc f]) (nodes s c)).
      assert (mu (setN c x s) <= mu s + (2 + U)) as A by (apply mu_setN; unfold x, nW; fields; rewrite sum_app; cbn [sum kW]; lia).
      assert (mu (setF f (set_fst_ Terming (set_fq r (fds s f))) (setN c x s)) + (3 + U) <= mu (setN c x s)); [|lia].
      apply mu_setF_less; [exact JF|]. rewrite setN_fds. unfold fW. fields. rewrite Q, ST. cbn [length]. lia.
    + specialize (G Fin (or_introl eq_refl)). lia.
    + specialize (G Fin (or_introl eq_refl)). lia.
  - (* a core *)
    cbn [ofFederation] in OF. pose proof (MS c OF) as JM. cbn [Shutdown.step] in *. destruct (isStop (rs (nodes s c)) || negb (t_core T c)); [elim NE; reflexivity|].
    destruct (cq (nodes s c)) as [|[f|f] r] eqn:Q; [elim NE; reflexivity| |]; clear NE.
    + set (out := if isFin _ then [] else _). pose proof (mu_sendF out (setN c (set_cq r (nodes s c)) s)) as A. assert (length out <= 1) as L by (unfold out; destruct (isFin _); cbn; lia).
      assert (mu (setN c (set_cq r (nodes s c)) s) + 2 <= mu s); [|lia]. apply mu_setN_less; [exact JM|]. unfold nW. fields. rewrite Q. cbn [sum kW]. lia.
    + assert (nW c (fst (coreDisc N c f (set_cq r (nodes s c)))) + 2 <= nW c (nodes s c)) as W.
      { unfold coreDisc. cbv zeta. set (x1 := set_gone _ _). pose proof (check_W c x1) as CW. assert (nW c x1 + (2 + U) <= nW c (nodes s c)) as W1 by (unfold x1, nW; fields; rewrite Q; cbn [sum kW]; lia).
        pose proof (HB c OF). destruct (_ || _ || _); cbn [fst]; [|lia]. unfold nW at 1. fields. rewrite app_length. cbn [length]. unfold nW at 1 in CW. lia. }
      destruct (coreDisc N c f (set_cq r (nodes s c))) as [y a]. cbn [fst] in W. set (out := if _ && _ then _ else _).
      pose proof (mu_sendF out (setN c y s)) as A. assert (length out <= 1) as L by (unfold out; destruct (_ && _); cbn; lia). pose proof (mu_setN_less c y s 2 JM W). lia.
  - (* a command to the parent *)
    cbn [ofFederation] in OF. pose proof (MS k OF) as JK. cbn [Shutdown.step] in *. destruct (t_parent T k) as [p|] eqn:PP; [|elim NE; reflexivity]. destruct (up (nodes s k)) as [|m r] eqn:UK; [elim NE; reflexivity|].
    destruct (isIn k (kids N p)) eqn:IK; [|elim NE; reflexivity]. apply isIn_iff in IK. clear NE. cbv zeta. set (s1 := setN k (set_up r (nodes s k)) s).
    assert (member T N p) as MP.
    { inversion OF as [E|n k' M J E]; [subst; rewrite (proj1 HT) in PP; discriminate|]. subst. apply (proj1 WF) in J. rewrite PP in J. injection J as ->. exact M. }
    pose proof (HU p k MP IK) as WU. assert (mu s1 + uW k <= mu s) as A by (apply mu_setN_less; [exact JK|]; unfold nW; fields; rewrite UK; cbn [length]; lia).
    destruct (isStop (rs (nodes s p))); [lia|].
    assert (nodes s1 p = nodes s p) as EP by (unfold s1; apply setN_neq; apply (kid_neq T N HT WF p k IK)). rewrite EP.
    assert (forall y out, (y, out) = (match m with UDisc => brokerDisc T N p k (nodes s p) | _ => brokerPass T N p m (nodes s p) end) -> nW p y <= nW p (nodes s p) + uW p /\ sum (fun o => wD (fst o)) out <= 2 * sum wD (kids N p)) as SH.
    { assert (forall x, sum (fun o => wD (fst o)) (bcast N p x) <= sum wD (kids N p)) as BC by (intros x; apply (out_map (fun _ => DBcast))).
      assert (forall x, sum (fun o => wD (fst o)) (ackAll N p x) <= sum wD (kids N p)) as AC by (intros x; apply (out_map (fun _ => DAck))).
      pose proof (sum_in wD k (kids N p) IK) as WK.
      intros y out E. destruct m.
      - unfold brokerDisc in E. cbv zeta in E. revert E. set (x1 := set_gone _ _). set (o := if _ && _ then bcast N p x1 else []).
        assert (sum (fun o => wD (fst o)) o <= sum wD (kids N p)) as HO by (unfold o; destruct (_ && _); [apply BC|cbn; lia]). clearbody o.
        destruct (allKids N p x1).
        + destruct (p =? root); [destruct (glob N)|]; intros E; injection E as -> ->; rewrite ?sum_app; unfold nW, x1; fields; rewrite ?app_length; cbn [sum fst length]; try specialize (AC x1); unfold x1 in *; lia.
        + destruct (glob N); destruct (negb (p =? root) && negb (oper x1)); intros E; injection E as -> ->; rewrite ?sum_app; unfold nW, x1; fields; rewrite ?app_length; cbn [sum fst length]; lia.
      - unfold brokerPass in E. destruct (p =? root); injection E as -> ->; unfold nW; fields; rewrite ?app_length; cbn [sum fst length]; [|lia]. destruct (oper _); cbn [sum]; [lia|]. specialize (BC (nodes s p)). lia.
      - unfold brokerPass in E. destruct (p =? root); injection E as -> ->; unfold nW; fields; rewrite ?app_length; cbn [sum fst length]; [|lia]. destruct (oper _); cbn [sum]; [lia|]. specialize (BC (nodes s p)). lia. }
    destruct (match m with UDisc => brokerDisc T N p k (nodes s p) | _ => brokerPass T N p m (nodes s p) end) as [y out]. destruct (SH y out eq_refl) as [Y1 Y2].
    pose proof (mu_sendD out (setN p y s1)) as B. pose proof (mu_setN p y s1 (uW p) ltac:(rewrite EP; exact Y1)) as C. lia.
  - (* a command from the parent *)
    cbn [ofFederation] in OF. pose proof (MS n OF) as JM. pose proof (HD n OF) as WD. cbn [Shutdown.step] in *. destruct (isStop (rs (nodes s n))); [elim NE; reflexivity|].
    destruct (dn (nodes s n)) as [|m r] eqn:D; [elim NE; reflexivity|]. clear NE. cbv zeta. set (x := set_dn r (nodes s n)).
    assert (nW n x + wD n <= nW n (nodes s n)) as W by (unfold x, nW; fields; rewrite D; cbn [length]; lia).
    assert (forall y out, nW n y <= nW n x -> sum (fun o => wD (fst o)) out <= sum wD (kids N n) -> mu (sendD out (setN n y s)) < mu s) as GD.
    { intros y out Y1 Y2. pose proof (mu_sendD out (setN n y s)). pose proof (mu_setN_less n y s (wD n) JM ltac:(lia)). lia. }
    assert (forall y out, nW n y <= nW n x -> length out <= length (feds N n) -> mu (sendF out (setN n y s)) < mu s) as GF.
    { intros y out Y1 Y2. pose proof (mu_sendF out (setN n y s)). pose proof (mu_setN_less n y s (wD n) JM ltac:(lia)). lia. }
    destruct (t_core T n); destruct m.
    + apply GF; [unfold nW; fields; lia|apply toFeds_length].
    + pose proof (coreGlobal_W n x) as CW. destruct (coreGlobal x) as [y a]. cbn [fst snd] in CW. apply GF; [destruct a; lia|]. destruct a; [apply toFeds_length|cbn; lia].
    + pose proof (check_W n x) as CW. pose proof (mu_setN_less n (check N n x) s (wD n) JM ltac:(lia)). lia.
    + cbn [brokerAck]. apply GD; [unfold nW; fields; lia|apply (out_map (fun _ => DAck))].
    + cbn [brokerGlobal]. apply GD; [unfold nW; fields; lia|]. clear. induction (kids N n) as [|k l IH]; cbn [flat_map sum]; [lia|]. rewrite sum_app. destruct (negb _); [|destruct (negb _)]; cbn [sum fst]; lia.
    + apply GD; [lia|apply (out_map (fun _ => DBcast))].
  - (* stop *)
    cbn [ofFederation] in OF. pose proof (MS n OF) as JM. cbn [Shutdown.step] in *. destruct (stopping (nodes s n) && negb (isStop (rs (nodes s n)))) eqn:G; [|elim NE; reflexivity]. clear NE.
    apply andb_true_iff in G as [_ G]. apply negb_true_iff, isStop_not in G. destruct (t_core T n).
    + unfold coreStop. destruct (isRun (rs (nodes s n))) eqn:R.
      * apply isRun_iff in R. pose proof (mu_sendF (toFeds N n FStop s) (setN n (set_rs Stop (set_up (up (nodes s n) ++ [UDisc]) (nodes s n))) s)) as A. pose proof (toFeds_length n FStop s).
        assert (mu (setN n (set_rs Stop (set_up (up (nodes s n) ++ [UDisc]) (nodes s n))) s) + (1 + length (feds N n)) <= mu s); [|lia].
        apply mu_setN_less; [exact JM|]. unfold nW. fields. rewrite R, app_length. cbn [length rW]. lia.
      * apply isRun_not in R. pose proof (mu_sendF [] (setN n (set_rs Stop (nodes s n)) s)) as A. cbn [length] in A.
        assert (mu (setN n (set_rs Stop (nodes s n)) s) + 1 <= mu s); [|lia]. apply mu_setN_less; [exact JM|]. unfold nW. fields. destruct (rs (nodes s n)); try congruence. cbn [rW]. lia.
    + assert (mu (setN n (brokerStop T N n (nodes s n)) s) + 1 <= mu s); [|lia]. apply mu_setN_less; [exact JM|]. unfold brokerStop, nW. destruct (_ && _); fields; rewrite ?app_length; cbn [length]; destruct (rs (nodes s n)); try congruence; cbn [rW]; lia.
Qed.
Lemma works_bound s es : works T N s es -> length es <= mu s.
Proof. induction 1 as [s|s e es IN OF NE W IH]; cbn [length]; [lia|]. pose proof (step_less s e IN OF NE). lia. Qed.
End Term.

(** ** The weights *)
Section Weights.
Context (T : topology) (N : fedn) (HT : tree T) (WF : wf T N).
Fixpoint wDf (m n : nat) : nat := match m with 0 => 0 | S m => 1 + sum (wDf m) (kids N n) + length (feds N n) end.
Definition wD_ (D n : nat) : nat := wDf (S D - t_depth T n) n.
Lemma wD_ok D n : t_depth T n <= D -> 1 + sum (wD_ D) (kids N n) + length (feds N n) <= wD_ D n.
Proof.
  intros L. unfold wD_ at 2. replace (S D - t_depth T n) with (S (D - t_depth T n)) by lia. cbn [wDf].
  rewrite (sum_ext (wD_ D) (wDf (D - t_depth T n)) (kids N n)); [lia|]. intros k I. unfold wD_. apply (proj1 WF) in I. destruct HT as [_ [_ [_ H]]]. destruct (H k n I) as [_ E]. rewrite E. replace (S D - S (t_depth T n)) with (D - t_depth T n) by lia. reflexivity.
Qed.
Fixpoint uWf (w : nat -> nat) (d n : nat) : nat :=
  match d with 0 => 1 | S d => match t_parent T n with Some p => 1 + uWf w d p + 2 * sum w (kids N p) | None => 1 end end.
Definition uW_ (w : nat -> nat) (n : nat) : nat := uWf w (t_depth T n) n.
Lemma uW_ok w p k : In k (kids N p) -> 1 + uW_ w p + 2 * sum w (kids N p) <= uW_ w k.
Proof.
  intros I. apply (proj1 WF) in I. destruct HT as [_ [_ [_ H]]]. destruct (H k p I) as [_ E]. unfold uW_ at 2. rewrite E. cbn [uWf]. rewrite I. unfold uW_. lia.
Qed.

(** C46: whatever the order, only finitely many commands are processed before nothing is left to do *)
Theorem C46_commands_come_to_an_end s : finite T N -> exists B, forall es, works T N s es -> length es <= B.
Proof.
  intros [ms [fs [HM HF]]]. set (ms' := nodup Nat.eq_dec ms). set (fs' := nodup Nat.eq_dec fs). set (D := sum (t_depth T) ms). set (w := wD_ D).
  exists (mu N ms' fs' w (uW_ w) (sum (uW_ w) ms) s). intros es W. apply (works_bound T N HT WF ms' fs'); try assumption.
  - apply NoDup_nodup.
  - apply NoDup_nodup.
  - intros n M. apply nodup_In, HM, M.
  - intros c f M I. apply nodup_In, (HF c f M I).
  - intros n M. apply wD_ok. apply (sum_in (t_depth T)), HM, M.
  - intros p k M I. apply uW_ok, I.
  - intros n M. apply (sum_in (uW_ w)), HM, M.
Qed.
(** C46: and when nothing is left to do after all federates have called finalize, every core and broker has stopped and every
    finalize has returned: whatever the order in which the commands were processed *)
Theorem C46_every_schedule_shuts_down h es : fair T h -> finite T N ->
  (forall n, member T N n -> if t_core T n then feds N n <> [] else kids N n <> []) ->
  (forall c f, member T N c -> In f (feds N c) -> called (fds (run T N h) f) = true) ->
  works T N (run T N h) es -> settled T N (run T N (h ++ es)) ->
  (forall n, member T N n -> rs (nodes (run T N (h ++ es)) n) = Stop) /\
  (noUser h -> forall c f, member T N c -> In f (feds N c) -> returned (run T N (h ++ es)) f).
Proof.
  intros FH [ms [fs [HM HF]]] PO CA W ST.
  assert (forall e, In e es -> internal e) as IE by (clear -W; induction W as [|s e es IN OF NE W IH]; intros x []; [subst; exact IN|apply IH; assumption]).
  destruct (C46_shutdown_completes T N HT WF (h ++ es) (sum (t_depth T) ms)) as [A B].
  - intros n I. apply in_app_or in I as [I|I]; [apply (FH n I)|destruct (IE _ I)].
  - intros n M. split; [apply (sum_in (t_depth T)), HM, M|apply PO, M].
  - exact ST.
  - intros c f M I. pose proof (CA c f M I) as C. unfold run in *. rewrite fold_left_app. clear -C. revert C. generalize (fold_left (step T N) h gs0). induction es as [|e es IH]; intros s C; [exact C|]. cbn. apply IH, called_step, C.
  - split; [exact A|]. intros NU. apply B. intros n I. apply in_app_or in I as [I|I]; [apply (NU n I)|destruct (IE _ I)].
Qed.
End Weights.
