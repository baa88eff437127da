(** * Alias groups of the registry (lemmas about [addAliasName]) *)
From Coq Require Import ZArith Bool List Lia Sorted.
From Verif Require Import HTime Action Interfaces InputSpec PropsInput Ids Handles.
Import ListNotations.

(** ** names *)
Lemma beq_refl n : beq n n = true.
Proof. apply beq_eq. reflexivity. Qed.
Lemma beq_neq a b : beq a b = false <-> a <> b.
Proof. rewrite <- (not_true_iff_false (beq a b)). rewrite beq_eq. tauto. Qed.
Lemma name_dec (a b : name) : {a = b} + {a <> b}.
Proof. destruct (beq a b) eqn:E; [left; apply beq_eq; exact E|right; apply beq_neq; exact E]. Qed.
Lemma nameLt_irrefl a : nameLt a a = false.
Proof. induction a as [|x a IH]; cbn; [reflexivity|]. rewrite Z.ltb_irrefl. exact IH. Qed.
Lemma nameLt_trans a b c : nameLt a b = true -> nameLt b c = true -> nameLt a c = true.
Proof.
  revert b c. induction a as [|x a IH]; intros [|y b] [|z c]; cbn; try discriminate; auto.
  destruct (Z.ltb_spec x y), (Z.ltb_spec y z), (Z.ltb_spec x z), (Z.ltb_spec y x), (Z.ltb_spec z y), (Z.ltb_spec z x); try discriminate; try lia; auto. apply IH.
Qed.
Lemma nameLt_total a b : nameLt a b = false -> a <> b -> nameLt b a = true.
Proof.
  revert b. induction a as [|x a IH]; intros [|y b]; cbn; try discriminate; auto; try congruence.
  destruct (Z.ltb_spec x y); [discriminate|]. destruct (Z.ltb_spec y x); [reflexivity|]. intros E N. apply IH; [exact E|]. intros ->. apply N. f_equal. lia.
Qed.

(** ** maps *)
Section Map.
Context {A : Type}.
Implicit Types m : list (name * A).
Lemma find_app n m m' : find n (m ++ m') = match find n m with Some v => Some v | None => find n m' end.
Proof. induction m as [|[k v] m IH]; cbn; [reflexivity|]. destruct (beq k n); [reflexivity|exact IH]. Qed.
Lemma find_emplace n v m x : find x (emplace n v m) = match find x m with Some w => Some w | None => if beq n x then Some v else None end.
Proof.
  unfold emplace. destruct (find n m) eqn:E.
  - destruct (find x m) eqn:Ex; [reflexivity|]. destruct (beq n x) eqn:B; [|reflexivity]. apply beq_eq in B. congruence.
  - rewrite find_app. destruct (find x m) eqn:Ex; reflexivity.
Qed.
Lemma find_erase n m x : find x (erase n m) = if beq n x then None else find x m.
Proof.
  unfold erase. induction m as [|[k v] m IH]; cbn; [destruct (beq n x); reflexivity|]. destruct (beq k n) eqn:B; cbn.
  - rewrite IH. apply beq_eq in B. subst k. destruct (beq n x); reflexivity.
  - rewrite IH. destruct (beq k x) eqn:Bx; [|reflexivity]. apply beq_eq in Bx. subst k. destruct (beq n x) eqn:Bn; [|reflexivity]. apply beq_eq in Bn. subst n. rewrite beq_refl in B. discriminate.
Qed.
Lemma find_assign n v m x : find x (assign n v m) = if beq n x then Some v else find x m.
Proof.
  induction m as [|[k w] m IH]; cbn; [reflexivity|]. destruct (beq k n) eqn:B; cbn.
  - apply beq_eq in B. subst k. destruct (beq n x); reflexivity.
  - rewrite IH. destruct (beq k x) eqn:Bx; [|reflexivity]. apply beq_eq in Bx. subst k. destruct (beq n x) eqn:Bn; [|reflexivity]. apply beq_eq in Bn. subst n. rewrite beq_refl in B. discriminate.
Qed.
Lemma length_assign n v m : (length m <= length (assign n v m))%nat.
Proof. induction m as [|[k w] m IH]; cbn; [lia|]. destruct (beq k n); cbn; lia. Qed.
End Map.

Definition mem (a : name) (v : list name) : bool := existsb (beq a) v.
Lemma mem_in a v : mem a v = true <-> In a v.
Proof.
  unfold mem. rewrite existsb_exists. split; [intros (x & H & E); apply beq_eq in E; subst; exact H|intros H; exists a; split; [exact H|apply beq_refl]].
Qed.
Lemma vecOf_assign n v al x : vecOf x (assign n v al) = if beq n x then v else vecOf x al.
Proof. unfold vecOf. rewrite find_assign. destruct (beq n x); reflexivity. Qed.

(** ** sorted vectors *)
Definition sorted (v : list name) : Prop := StronglySorted (fun a b => nameLt a b = true) v.
Lemma lowerInsert_spec a v : sorted v ->
  match lowerInsert a v with
  | None => In a v
  | Some v' => ~ In a v /\ sorted v' /\ forall z, In z v' <-> z = a \/ In z v
  end.
Proof.
  unfold sorted. induction 1 as [|x v S' IH F]; cbn [lowerInsert].
  - split; [intros []|]. split; [repeat constructor|]. intros z. cbn. intuition.
  - rewrite Forall_forall in F. destruct (nameLt x a) eqn:L.
    + destruct (lowerInsert a v) as [v'|]; cbn [option_map].
      * destruct IH as (N & Sv & I). split; [|split].
        -- intros [->|H]; [rewrite nameLt_irrefl in L; discriminate|]. exact (N H).
        -- constructor; [exact Sv|]. apply Forall_forall. intros z Hz. apply I in Hz. destruct Hz as [->|Hz]; auto.
        -- intros z. cbn. rewrite I. intuition.
      * right. exact IH.
    + destruct (beq x a) eqn:B; [left; apply beq_eq; exact B|]. apply beq_neq in B. apply nameLt_total in L; [|exact B].
      split; [|split].
      * intros [->|H]; [congruence|]. specialize (F _ H). pose proof (nameLt_trans _ _ _ L F) as C. rewrite nameLt_irrefl in C. discriminate.
      * constructor; [constructor; [exact S'|apply Forall_forall; exact F]|]. constructor; [exact L|]. apply Forall_forall. intros z Hz. eapply nameLt_trans; [exact L|auto].
      * intros z. cbn. intuition.
Qed.

(** ** a new name joins a group *)
Section Join.
Variables (al0 : amap) (K : list name) (f : name).
Hypothesis (NK : NoDup K) (Ff : ~ In f K).
Definition P (al : amap) : Prop :=
  (forall u, ~ In u K -> u <> f -> find u al = find u al0) /\
  (forall u, In u K -> forall v, In v (vecOf u al) -> v <> u /\ (In v K \/ v = f)) /\
  (forall u v, In u K -> In v K -> v <> u -> In v (vecOf u al)) /\
  (forall v, In v (vecOf f al) -> In v K) /\
  (forall u, sorted (vecOf u al)) /\
  (forall u v, find u al = Some v -> v <> []).
Definition miss (al : amap) : nat :=
  (length (filter (fun u => negb (mem f (vecOf u al))) K) + length (filter (fun u => negb (mem u (vecOf f al))) K))%nat.
Definition ext (al al' : amap) : Prop := forall u v, In v (vecOf u al) -> In v (vecOf u al').
Definition allf (al : amap) : Prop := forall o, In o K -> In f (vecOf o al).
Definition newpairs (al al' : amap) : Prop := forall u v, In v (vecOf u al') -> In v (vecOf u al) \/ In u (vecOf v al').

Lemma filter_le {A} (p q : A -> bool) l : (forall x, In x l -> q x = true -> p x = true) -> (length (filter q l) <= length (filter p l))%nat.
Proof.
  induction l as [|x l IH]; intros H; cbn; [lia|]. assert (IH' : (length (filter q l) <= length (filter p l))%nat) by (apply IH; intros; apply H; [right|]; assumption).
  destruct (q x) eqn:Q; [rewrite (H x (or_introl eq_refl) Q); cbn; lia|]. destruct (p x); cbn; lia.
Qed.
Lemma filter_lt {A} (p q : A -> bool) l k : (forall x, In x l -> q x = true -> p x = true) -> In k l -> p k = true -> q k = false -> (length (filter q l) < length (filter p l))%nat.
Proof.
  induction l as [|x l IH]; intros H I Pk Qk; [destruct I|]. cbn. assert (HL : (length (filter q l) <= length (filter p l))%nat) by (apply filter_le; intros; apply H; [right|]; assumption).
  destruct I as [->|I].
  - rewrite Pk, Qk. cbn. lia.
  - assert (IH' := IH (fun x Hx => H x (or_intror Hx)) I Pk Qk). destruct (q x) eqn:Q; [rewrite (H x (or_introl eq_refl) Q); cbn; lia|]. destruct (p x); cbn; lia.
Qed.
Lemma miss_ext al al' : ext al al' -> (miss al' <= miss al)%nat.
Proof.
  intros X. unfold miss. apply Nat.add_le_mono; apply filter_le; intros u _ H; rewrite negb_true_iff in *; destruct (mem _ (vecOf _ al)) eqn:E; try reflexivity; exfalso;
    apply mem_in in E; apply X in E; apply mem_in in E; congruence.
Qed.
(** entering one missing link *)
Lemma miss_step al x y v' : (In x K /\ y = f \/ x = f /\ In y K) -> ~ In y (vecOf x al) -> (forall z, In z v' <-> z = y \/ In z (vecOf x al)) ->
  (miss (assign x v' al) < miss al)%nat.
Proof.
  intros C N I. assert (X : ext al (assign x v' al)).
  { intros u v H. rewrite vecOf_assign. destruct (beq x u) eqn:B; [|exact H]. apply beq_eq in B. subst u. apply I. right. exact H. }
  assert (Y : In y (vecOf x (assign x v' al))) by (rewrite vecOf_assign, beq_refl; apply I; left; reflexivity).
  unfold miss. destruct C as [[Kx ->]|[-> Ky]].
  - apply Nat.add_lt_le_mono.
    + apply (filter_lt _ _ K x); [| exact Kx | |].
      * intros u _ H. rewrite negb_true_iff in *. destruct (mem f (vecOf u al)) eqn:E; [|reflexivity]. exfalso. apply mem_in in E; apply X in E; apply mem_in in E; congruence.
      * rewrite negb_true_iff. destruct (mem f (vecOf x al)) eqn:E; [|reflexivity]. apply mem_in in E. contradiction.
      * rewrite negb_false_iff. apply mem_in. exact Y.
    + apply filter_le. intros u _ H. rewrite negb_true_iff in *. destruct (mem u (vecOf f al)) eqn:E; [|reflexivity]. exfalso. apply mem_in in E; apply X in E; apply mem_in in E; congruence.
  - apply Nat.add_le_lt_mono.
    + apply filter_le. intros u _ H. rewrite negb_true_iff in *. destruct (mem f (vecOf u al)) eqn:E; [|reflexivity]. exfalso. apply mem_in in E; apply X in E; apply mem_in in E; congruence.
    + apply (filter_lt _ _ K y); [| exact Ky | |].
      * intros u _ H. rewrite negb_true_iff in *. destruct (mem u (vecOf f al)) eqn:E; [|reflexivity]. exfalso. apply mem_in in E; apply X in E; apply mem_in in E; congruence.
      * rewrite negb_true_iff. destruct (mem y (vecOf f al)) eqn:E; [|reflexivity]. apply mem_in in E. contradiction.
      * rewrite negb_false_iff. apply mem_in. exact Y.
Qed.
Lemma P_step al x y v' : P al -> (In x K /\ y = f \/ x = f /\ In y K) -> sorted v' -> (forall z, In z v' <-> z = y \/ In z (vecOf x al)) -> P (assign x v' al).
Proof.
  intros (P1 & P2 & P3 & P4 & P5 & P6) C Sv I. unfold P. split; [|split; [|split; [|split; [|split]]]].
  - intros u U1 U2. rewrite find_assign. destruct (beq x u) eqn:B; [|apply P1; assumption]. apply beq_eq in B. subst u. destruct C as [[Kx _]|[-> _]]; contradiction.
  - intros u Ku v H. rewrite vecOf_assign in H. destruct (beq x u) eqn:B; [|apply P2; assumption]. apply beq_eq in B. subst u. apply I in H.
    destruct H as [->|H]; [|apply P2; assumption]. destruct C as [[_ ->]|[-> _]]; [|contradiction]. split; [intros ->; contradiction|right; reflexivity].
  - intros u v Ku Kv N. rewrite vecOf_assign. destruct (beq x u) eqn:B; [|apply P3; assumption]. apply beq_eq in B. subst u. apply I. right. apply P3; assumption.
  - intros v H. rewrite vecOf_assign in H. destruct (beq x f) eqn:B; [|apply P4; assumption]. apply beq_eq in B. subst x. apply I in H. destruct H as [->|H]; [|apply P4; exact H].
    destruct C as [[Kx _]|[_ Ky]]; [contradiction|exact Ky].
  - intros u. rewrite vecOf_assign. destruct (beq x u); [exact Sv|apply P5].
  - intros u v H. rewrite find_assign in H. destruct (beq x u) eqn:B; [|apply (P6 _ _ H)]. assert (v = v') by congruence. subst v. intros ->. apply (I y). left. reflexivity.
Qed.

Lemma join n : forall al busy x y k, P al -> (forall b, In b busy -> In b K /\ In f (vecOf b al)) -> (x = k /\ y = f \/ x = f /\ y = k) -> In k K -> (miss al < n)%nat ->
  exists al' c, addAliasName n busy al x y = Done al' c /\ P al' /\ ext al al' /\ In y (vecOf x al') /\ newpairs al al' /\
    (x = k -> allf al' \/ In f (vecOf k al)) /\ (x = f -> allf al' \/ In f (vecOf k al) \/ In k (vecOf f al)).
Proof.
  induction n as [|n IH]; intros al busy x y k HP HB C Kk M; [lia|]. cbn [addAliasName].
  assert (C' : In x K /\ y = f \/ x = f /\ In y K) by (destruct C as [[-> ->]|[-> ->]]; auto).
  assert (NE : x <> y) by (destruct C' as [[H ->]|[-> H]]; intros ->; contradiction).
  rewrite (proj2 (beq_neq x y) NE). destruct (find x al) as [v|] eqn:E.
  - assert (Ev : vecOf x al = v) by (unfold vecOf; rewrite E; reflexivity).
    assert (Sv : sorted v) by (rewrite <- Ev; apply HP). pose proof (lowerInsert_spec y v Sv) as L. destruct (lowerInsert y v) as [v'|].
    2:{ exists al, false. split; [reflexivity|]. split; [exact HP|]. split; [intros u w H; exact H|]. split; [rewrite Ev; exact L|]. split; [intros u w H; left; exact H|].
        rewrite <- Ev in L. destruct C as [[-> ->]|[-> ->]]; split; intros; subst; auto; contradiction. }
    destruct L as (Ny & Sv' & I).
    assert (NB : existsb (beq x) busy = false).
    { destruct (existsb (beq x) busy) eqn:B; [|reflexivity]. apply (mem_in x busy) in B. destruct (HB x B) as [B1 B2]. destruct C' as [[_ ->]|[-> _]]; [|contradiction]. rewrite Ev in B2. contradiction. }
    rewrite NB. rewrite <- Ev in I, Ny.
    assert (P1 : P (assign x v' al)) by (apply (P_step al x y v'); assumption).
    assert (M1 : (miss (assign x v' al) < n)%nat) by (pose proof (miss_step al x y v' C' Ny I); lia).
    assert (X1 : ext al (assign x v' al)).
    { intros u w H. rewrite vecOf_assign. destruct (beq x u) eqn:B; [|exact H]. apply beq_eq in B. subst u. apply I. right. exact H. }
    assert (Y1 : In y (vecOf x (assign x v' al))) by (rewrite vecOf_assign, beq_refl; apply I; left; reflexivity).
    assert (New1 : forall u w, In w (vecOf u (assign x v' al)) -> In w (vecOf u al) \/ u = x /\ w = y).
    { intros u w H. rewrite vecOf_assign in H. destruct (beq x u) eqn:B; [|left; exact H]. apply beq_eq in B. subst u. apply I in H. destruct H as [->|H]; [right; auto|left; exact H]. }
    assert (Vx : vecOf x (assign x v' al) = v') by (rewrite vecOf_assign, beq_refl; reflexivity).
    set (al1 := assign x v' al) in *. clearbody al1.
    set (loop := (fix loop (l : list name) (al : amap) : outcome := match l with [] => Done al true | o :: r => match addAliasName n (x :: busy) al o y with Done al _ => loop r al | z => z end end)).
    assert (HL : exists al2, loop v' al1 = Done al2 true /\ P al2 /\ ext al1 al2 /\ newpairs al1 al2 /\ (x = k -> allf al2) /\ (x = f -> al2 = al1)).
    { destruct C as [[-> ->]|[-> ->]].
      - (* the members of the group learn the new name *)
        assert (G : forall l a, P a -> ext al1 a -> (forall o, In o l -> In o K \/ o = f) ->
                     exists a', loop l a = Done a' true /\ P a' /\ ext a a' /\ newpairs a a' /\ forall o, In o l -> In o K -> In f (vecOf o a')).
        { induction l as [|o l IHl]; intros a Pa Xa Hl.
          - exists a. split; [reflexivity|]. split; [exact Pa|]. split; [intros u w H; exact H|]. split; [intros u w H; left; exact H|]. intros o [].
          - cbn [loop]. destruct (Hl o (or_introl eq_refl)) as [Ko| ->].
            + destruct (IH a (k :: busy) o f o Pa) as (a1 & c1 & R1 & Pa1 & Xa1 & Ya1 & Na1 & _); [|auto|exact Ko|pose proof (miss_ext _ _ Xa); lia|].
              { intros b [<-|Hb]; [split; [exact Kk|apply Xa; exact Y1]|]. destruct (HB b Hb). split; [assumption|]. apply Xa, X1. assumption. }
              rewrite R1. fold loop. destruct (IHl a1 Pa1) as (a2 & R2 & Pa2 & Xa2 & Na2 & Al2); [intros u w H; apply Xa1, Xa, H|intros; apply Hl; right; assumption|].
              exists a2. split; [exact R2|]. split; [exact Pa2|]. split; [intros u w H; apply Xa2, Xa1, H|]. split.
              * intros u w H. destruct (Na2 u w H) as [H1|H1]; [|right; exact H1]. destruct (Na1 u w H1) as [H2|H2]; [left; exact H2|right; apply Xa2; exact H2].
              * intros o' [<-|Ho'] Ko'; [apply Xa2; exact Ya1|apply Al2; assumption].
            + destruct n as [|n']; [lia|]. cbn [addAliasName]. rewrite beq_refl. fold loop. destruct (IHl a Pa Xa) as (a2 & R2 & Pa2 & Xa2 & Na2 & Al2); [intros; apply Hl; right; assumption|].
              exists a2. split; [exact R2|]. split; [exact Pa2|]. split; [exact Xa2|]. split; [exact Na2|]. intros o' [<-|Ho'] Ko'; [contradiction|apply Al2; assumption]. }
        destruct (G v' al1 P1) as (al2 & R & P2' & X2 & N2 & A2); [intros u w H; exact H| |].
        { intros o Ho. rewrite <- Vx in Ho. apply (proj1 (proj2 P1)) in Ho; [|exact Kk]. tauto. }
        exists al2. split; [exact R|]. split; [exact P2'|]. split; [exact X2|]. split; [exact N2|]. split; [|intros ->; contradiction]. intros _ o Ko. destruct (name_dec o k) as [->|Nk]; [apply X2; exact Y1|].
        apply A2; [|exact Ko]. rewrite <- Vx. apply (proj1 (proj2 (proj2 P1))); assumption.
      - (* the members of the group know each other *)
        assert (G : forall l, (forall o, In o l -> In o K) -> loop l al1 = Done al1 true).
        { induction l as [|o l IHl]; intros Hl; [reflexivity|]. cbn [loop]. destruct n as [|n']; [lia|]. cbn [addAliasName]. destruct (beq o k) eqn:B; [fold loop; apply IHl; intros; apply Hl; right; assumption|].
          apply beq_neq in B. assert (Ho : In o K) by (apply Hl; left; reflexivity). assert (Hk : In k (vecOf o al1)) by (apply (proj1 (proj2 (proj2 P1))); auto).
          unfold vecOf in Hk. destruct (find o al1) as [w|] eqn:Eo; [|destruct Hk]. assert (So : sorted w) by (pose proof (proj1 (proj2 (proj2 (proj2 (proj2 P1)))) o) as So; unfold vecOf in So; rewrite Eo in So; exact So).
          pose proof (lowerInsert_spec k w So) as L. destruct (lowerInsert k w); [tauto|]. fold loop. apply IHl. intros; apply Hl; right; assumption. }
        exists al1. split; [apply G; intros o Ho; rewrite <- Vx in Ho; apply P1; exact Ho|]. split; [exact P1|]. split; [intros u w H; exact H|]. split; [intros u w H; left; exact H|]. split; [intros ->; contradiction|reflexivity]. }
    destruct HL as (al2 & R & P2' & X2 & N2 & A2 & B2). rewrite R.
    destruct (IH al2 busy y x k P2') as (al3 & c & R3 & P3' & X3 & Y3 & N3 & A3); [|tauto|exact Kk|pose proof (miss_ext _ _ X2); lia|].
    { intros b Hb. destruct (HB b Hb). split; [assumption|]. apply X2, X1. assumption. }
    rewrite R3. exists al3, true. split; [reflexivity|]. split; [exact P3'|]. split; [intros u w H; apply X3, X2, X1, H|]. split; [apply X3, X2, Y1|]. split.
    + intros u w H. destruct (N3 u w H) as [H1|H1]; [|right; exact H1]. destruct (N2 u w H1) as [H2|H2]; [|right; apply X3; exact H2]. destruct (New1 u w H2) as [H3|[-> ->]]; [left; exact H3|right; exact Y3].
    + destruct C as [[-> ->]|[-> ->]]; (split; [intros E1|intros E1]); try (subst; contradiction).
      * left. intros o Ho. apply X3, A2; auto.
      * destruct (proj1 A3 eq_refl) as [A4|A4]; [left; exact A4|]. rewrite B2 in A4 by reflexivity. destruct (New1 _ _ A4) as [H|[-> _]]; [right; left; exact H|contradiction].
  - assert (Ev : vecOf x al = []) by (unfold vecOf; rewrite E; reflexivity).
    assert (I : forall z, In z [y] <-> z = y \/ In z (vecOf x al)) by (intros z; rewrite Ev; cbn; intuition).
    assert (Ny : ~ In y (vecOf x al)) by (rewrite Ev; intros []).
    assert (P1 : P (assign x [y] al)) by (apply (P_step al x y); try assumption; repeat constructor).
    pose proof (miss_step al x y [y] C' Ny I) as M1.
    assert (X1 : ext al (assign x [y] al)).
    { intros u w H. rewrite vecOf_assign. destruct (beq x u) eqn:B; [|exact H]. apply beq_eq in B. subst u. rewrite Ev in H. destruct H. }
    assert (Y1 : In y (vecOf x (assign x [y] al))) by (rewrite vecOf_assign, beq_refl; left; reflexivity).
    assert (New1 : forall u w, In w (vecOf u (assign x [y] al)) -> In w (vecOf u al) \/ u = x /\ w = y).
    { intros u w H. rewrite vecOf_assign in H. destruct (beq x u) eqn:B; [|left; exact H]. apply beq_eq in B. subst u. destruct H as [<-|[]]. right. auto. }
    set (al1 := assign x [y] al) in *. clearbody al1.
    destruct (IH al1 busy y x k P1) as (al3 & c & R3 & P3' & X3 & Y3 & N3 & A3); [|tauto|exact Kk|lia|].
    { intros b Hb. destruct (HB b Hb). split; [assumption|]. apply X1. assumption. }
    exists al3, c. split; [exact R3|]. split; [exact P3'|]. split; [intros u w H; apply X3, X1, H|]. split; [apply X3, Y1|]. split.
    + intros u w H. destruct (N3 u w H) as [H1|H1]; [|right; exact H1]. destruct (New1 u w H1) as [H3|[-> ->]]; [left; exact H3|right; exact Y3].
    + destruct C as [[-> ->]|[-> ->]]; (split; [intros E1|intros E1]); try (subst; contradiction).
      * left. intros o Ho. destruct (name_dec o k) as [->|Nk]; [apply X3, Y1|]. pose proof (proj1 (proj2 (proj2 HP)) k o Kk Ho Nk) as H. rewrite Ev in H. destruct H.
      * destruct (proj1 A3 eq_refl) as [A4|A4]; [left; exact A4|]. destruct (New1 _ _ A4) as [H|[-> _]]; [right; left; exact H|contradiction].
Qed.
End Join.
