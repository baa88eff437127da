(** * C44, continued: a registration is answered exactly once *)
From Coq Require Import String ZArith Bool List Lia.
From Verif Require Import Ids PropsIds Route RouteInv PropsRoute.
Import ListNotations.
Open Scope Z_scope.

(** ** Specification *)
(** the answers to registerFederate of [n] which arrive at the core [K] with the event [e] in the state [s] *)
Definition answersNow (s : net) (e : event) (K : nat) (n : string) : nat :=
  match e with
  | E_deliver k _ => match nth_error (wire s) k with
                     | Some (_, z, FedAck n' _ _ _ _) => if Nat.eqb z K && String.eqb n' n then 1%nat else 0%nat
                     | _ => 0%nat
                     end
  | _ => 0%nat
  end.
Fixpoint answers (T : topology) (es : list event) (s : net) (K : nat) (n : string) : nat :=
  match es with [] => 0%nat | e :: es => (answersNow s e K n + answers T es (step T s e) K n)%nat end.
Definition noLoss (e : event) : Prop := match e with E_lose _ => False | _ => True end.

(** ** the balance *)
Definition asked (s : net) (c : nat) (n : string) : nat := length (filter (String.eqb n) (map fst (n_local (nodes s c)))).
Definition lostNow (s : net) (e : event) (c : nat) (n : string) : nat :=
  match e with
  | E_lose k => match nth_error (wire s) k with Some q => ((if isReg c n q then 1 else 0) + (if isAck c n q then 1 else 0))%nat | None => 0%nat end
  | _ => 0%nat
  end.
Definition told (T : topology) (s : net) (e : event) (c : nat) (n : string) : nat := if t_core T c then answersNow s e c n else 0%nat.

Section Tree.
Variable T : topology.
Hypothesis HT : tree T.
Notation par := (t_parent T).
Notation root := (t_root T).

Definition balanced (s s' : net) (a : nat -> string -> nat) : Prop :=
  forall p c n, par c = Some p -> (tok s' p c n + a c n + (here s c n + asked s c n) = tok s p c n + (here s' c n + asked s' c n))%nat.

Lemma pend_grow s s' p c n : inv T s -> n_feds (nodes s' p) = n_feds (nodes s p) -> (exists l, n_routes (nodes s' p) = n_routes (nodes s p) ++ l) -> pend s' p c n = pend s p c n.
Proof.
  intros I F [l R]. unfold pend. rewrite F. destruct (findF (n_feds (nodes s p)) n) as [e|] eqn:Q; [|reflexivity]. destruct (findF_in _ _ _ Q) as [J _].
  destruct e as [n' g r o]. destruct (k_feds _ _ _ (i_nodes _ _ I p) n' g r o J) as (c' & A & _). apply (routes_lookup T s p) in A; [|apply (i_nodes _ _ I)].
  cbn [fe_route]. rewrite R, lookup_app, A. reflexivity.
Qed.
(** a change which concerns no federate *)
Lemma balanced_same s s' : inv T s -> (forall x, n_feds (nodes s' x) = n_feds (nodes s x)) -> (forall x, exists l, n_routes (nodes s' x) = n_routes (nodes s x) ++ l) ->
  (forall x, map fst (n_local (nodes s' x)) = map fst (n_local (nodes s x))) ->
  forall a, (forall c n, (cnt (isReg c n) (wire s') + cnt (isAck c n) (wire s') + a c n = cnt (isReg c n) (wire s) + cnt (isAck c n) (wire s))%nat) -> balanced s s' a.
Proof.
  intros I F R L a C p c n P. unfold tok. rewrite (pend_grow s s' p c n I (F p) (R p)). unfold settled, here, asked. rewrite F, L. specialize (C c n). lia.
Qed.
Lemma upd_nodes s y st w (P : node -> node -> Prop) : (forall a, P a a) -> P st (nodes s y) -> forall x, P (nodes (upd s y st w) x) (nodes s x).
Proof. intros R H x. destruct (Nat.eq_dec x y) as [->|N]; [rewrite upd_same; exact H|rewrite upd_other by exact N; apply R]. Qed.

(** messages about brokers *)
Definition aboutBroker (m : rmsg) : bool := match m with RegBroker _ _ _ _ | BrokerAck _ _ _ _ _ => true | _ => false end.
Lemma broker_cnt c n y st out : forallb (fun tm => aboutBroker (snd tm)) out = true -> cnt (isReg c n) (packets T y st out) = 0%nat /\ cnt (isAck c n) (packets T y st out) = 0%nat.
Proof.
  intros H. unfold packets. induction out as [|[t m] out IH]; [split; reflexivity|]. cbn [forallb snd] in H. apply andb_true_iff in H. destruct H as [H1 H2]. destruct (IH H2) as [A B].
  cbn [flat_map fst snd]. rewrite !cnt_app, A, B. destruct (resolve T y st t); [|split; reflexivity]. destruct m; try discriminate; split; reflexivity.
Qed.
Definition calm (st : node) (res : node * list (target * rmsg)) : Prop :=
  n_feds (fst res) = n_feds st /\ (exists l, n_routes (fst res) = n_routes st ++ l) /\ n_local (fst res) = n_local st /\ forallb (fun tm => aboutBroker (snd tm)) (snd res) = true.
Lemma calm_refl st out : forallb (fun tm => aboutBroker (snd tm)) out = true -> calm st (st, out).
Proof. intros H. split; [reflexivity|]. split; [exists []; symmetry; apply app_nil_r|]. split; [reflexivity|exact H]. Qed.
Lemma calm_errorAck st n src a : calm st (brokerErrorAck st n src a).
Proof.
  unfold brokerErrorAck. destruct (negb (isValid src) || (src =? parentId)); [|apply calm_refl; reflexivity].
  split; [reflexivity|]. split; [exists []; symmetry; apply app_nil_r|]. split; reflexivity.
Qed.
Lemma calm_registration st n src a ok : calm st (brokerRegistration st n src a 0 ok).
Proof.
  unfold brokerRegistration. change (0 <? 0) with false. cbn iota. destruct ok; cbn [negb]; [|apply calm_errorAck]. destruct (findB (n_brokers st) n); [apply calm_errorAck|].
  destruct (negb (isValid src) || (src =? parentId)); cbv beta iota zeta.
  - destruct (n_root _).
    + split; [reflexivity|]. split; [eexists; reflexivity|]. split; reflexivity.
    + destruct (isValid _ && _); (split; [reflexivity|]; split; [eexists; reflexivity|]; split; reflexivity).
  - destruct (n_root _).
    + split; [reflexivity|]. split; [exists []; symmetry; apply app_nil_r|]. split; reflexivity.
    + destruct (isValid _ && _); (split; [reflexivity|]; split; [exists []; symmetry; apply app_nil_r|]; split; reflexivity).
Qed.
Lemma calm_brokerAck st n src dst err o : (forall m, In m (n_delay st) -> aboutBroker m = true) -> calm st (brokerBrokerAck st n src dst err o).
Proof.
  intros D. unfold brokerBrokerAck. destruct (String.eqb n (n_name st)).
  - destruct err; [apply calm_refl; reflexivity|]. split; [reflexivity|]. split; [exists []; symmetry; apply app_nil_r|]. split; [reflexivity|]. cbn [snd].
    apply forallb_forall. intros tm H. apply in_map_iff in H. destruct H as (m & <- & M). specialize (D m M). cbn [snd]. destruct m; cbn in *; congruence.
  - destruct (findB (n_brokers st) n) as [e|]; [|split; [reflexivity|]; split; [exists []; symmetry; apply app_nil_r|]; split; reflexivity].
    destruct (be_gid e =? dst); [apply calm_refl; reflexivity|]. split; [reflexivity|]. split; [exists []; symmetry; apply app_nil_r|]. split; reflexivity.
Qed.
Lemma calm_balanced s y res : inv T s -> calm (nodes s y) res -> balanced s (upd s y (fst res) (wire s ++ packets T y (fst res) (snd res))) (fun _ _ => 0%nat).
Proof.
  intros I (F & R & L & O). apply balanced_same; [exact I|..].
  - intros x. destruct (Nat.eq_dec x y) as [->|N]; [rewrite upd_same; exact F|rewrite upd_other by exact N; reflexivity].
  - apply upd_routes, R.
  - intros x. destruct (Nat.eq_dec x y) as [->|N]; [rewrite upd_same, L; reflexivity|rewrite upd_other by exact N; reflexivity].
  - intros c n. cbn [upd wire]. rewrite !cnt_app. destruct (broker_cnt c n y (fst res) (snd res) O) as [-> ->]. lia.
Qed.

Lemma asked_other s y st w c n : c <> y -> asked (upd s y st w) c n = asked s c n.
Proof. intros N. unfold asked. rewrite upd_other by exact N. reflexivity. Qed.
Lemma asked_same s y st w c n : n_local st = n_local (nodes s y) -> asked (upd s y st w) c n = asked s c n.
Proof. intros L. destruct (Nat.eq_dec c y) as [->|N]; [|apply asked_other, N]. unfold asked. rewrite upd_same, L. reflexivity. Qed.
Lemma here_core s c n : inv T s -> t_core T c = true -> here s c n = 0%nat /\ settled s c n = 0%nat.
Proof. intros I C. destruct (k_core _ _ _ (i_nodes _ _ I c) C) as (_ & F & _). unfold here, settled. rewrite F. split; reflexivity. Qed.
Ltac unfn := cbn [set_n_rc set_n_routes set_n_brokers set_n_feds set_n_table set_n_delay set_n_local set_n_id set_n_higher set_n_ub
  n_root n_core n_name n_ub n_id n_higher n_delay n_brokers n_feds n_routes n_rc n_table n_local] in *.

(** one registration taken from the wire: what becomes of it *)
Definition minus (c0 : nat) (n0 : string) (c : nat) (n : string) : nat := if Nat.eqb c0 c && String.eqb n0 n then 1%nat else 0%nat.
Lemma regFed_balanced s c0 y n0 src ct o ok : inv T s -> small T s -> small T (deliver T s y (RegFed n0 src ct o) ok) -> okp T s (c0, y, RegFed n0 src ct o) ->
  forall p c n, par c = Some p ->
  (tok (deliver T s y (RegFed n0 src ct o) ok) p c n + (here s c n + asked s c n) =
   tok s p c n + minus c0 n0 c n + (here (deliver T s y (RegFed n0 src ct o) ok) c n + asked (deliver T s y (RegFed n0 src ct o) ok) c n))%nat.
Proof.
  intros I S S' (P & E & N & B & BF) p c n Pc. pose proof (not_self T HT _ _ Pc) as NS. unfold deliver, receive in *. rewrite (static_core T s y I) in *. rewrite (parent_core T HT _ _ P) in *. unfold fedRegistration in *.
  destruct (route_to_child T HT s y c0 I S P ltac:(congruence)) as (r & RT & RC). rewrite <- E in RT. rewrite RT in *. pose proof (i_nodes _ _ I y) as K.
  assert (REF : (tok (upd s y (nodes s y) (wire s ++ packets T y (nodes s y) [(ToRoute r, FedAck n0 (n_id (nodes s y)) parentId true o)])) p c n + (here s c n + asked s c n) =
    tok s p c n + minus c0 n0 c n + (here (upd s y (nodes s y) (wire s ++ packets T y (nodes s y) [(ToRoute r, FedAck n0 (n_id (nodes s y)) parentId true o)])) c n + asked (upd s y (nodes s y) (wire s ++ packets T y (nodes s y) [(ToRoute r, FedAck n0 (n_id (nodes s y)) parentId true o)])) c n))%nat).
  { rewrite asked_same by reflexivity. unfold packets. cbn [flat_map fst snd app]. rewrite (resolve_route T s y r c0 I RC) by reflexivity. cbn [app]. set (w := wire s ++ _).
    assert (Hx : here (upd s y (nodes s y) w) c n = here s c n) by (unfold here; destruct (Nat.eq_dec c y) as [->|Q]; [rewrite upd_same|rewrite upd_other by exact Q]; reflexivity).
    assert (Px : pend (upd s y (nodes s y) w) p c n = pend s p c n) by (unfold pend; destruct (Nat.eq_dec p y) as [->|Q]; [rewrite upd_same|rewrite upd_other by exact Q]; reflexivity).
    assert (Sx : settled (upd s y (nodes s y) w) c n = settled s c n) by (unfold settled; destruct (Nat.eq_dec c y) as [->|Q]; [rewrite upd_same|rewrite upd_other by exact Q]; reflexivity).
    unfold tok. rewrite Hx, Px, Sx. cbn [upd wire]. unfold w. rewrite !cnt_one. cbn [isReg isAck]. unfold minus. destruct (Nat.eqb c0 c && String.eqb n0 n); lia. }
  destruct ok; cbn [negb] in *; [|exact REF]. destruct (findF (n_feds (nodes s y)) n0) as [e|] eqn:F; [exact REF|]. clear REF.
  rewrite (static_root T s y I) in *. destruct (Nat.eqb_spec y root) as [->|NR]; cbv zeta in *; cbn [fst snd] in *.
  - unfold packets. cbn [flat_map fst snd app]. rewrite (resolve_route T s root r c0 I RC) by reflexivity. cbn [app]. pose proof (not_root T HT _ _ Pc) as NC.
    rewrite asked_same by reflexivity. rewrite here_other by exact NC. unfold tok. rewrite settled_other by exact NC. cbn [upd wire]. rewrite !cnt_one. cbn [isReg isAck].
    match goal with |- context [pend ?s' p c n] => assert (PE : pend s' p c n = pend s p c n) end.
    { destruct (Nat.eq_dec p root) as [->|NP]; [|rewrite pend_other by exact NP; reflexivity]. unfold pend. rewrite upd_same. unfn. rewrite findF_app.
      destruct (findF (n_feds (nodes s root)) n); [reflexivity|]. cbn [fe_name]. destruct (String.eqb n0 n); [|reflexivity]. cbn [fe_gid].
      destruct S' as [_ S']. rewrite upd_same in S'. unfn. rewrite app_length in S'. cbn [length] in S'.
      pose proof (newFed_valid (Z.of_nat (length (n_feds (nodes s root)))) ct ltac:(lia)) as GV. apply Z.eqb_neq in GV. rewrite GV. reflexivity. }
    rewrite PE. unfold minus. destruct (Nat.eqb c0 c && String.eqb n0 n); lia.
  - destruct (has_parent T HT y NR) as [py PY]. unfn. assert (IDN : n_id (nodes s y) <> 0).
    { destruct (k_id _ _ _ (i_nodes _ _ I c0) (not_root T HT _ _ P)) as [[Q _]|(_ & _ & Q)]; [congruence|]. apply Q, P. }
    rewrite (id_valid T s y I S IDN). cbn [fst snd]. unfold packets. cbn [flat_map fst snd app]. unfold resolve. change (parentRoute =? parentRoute) with true. cbn iota. rewrite PY. cbn [app].
    rewrite asked_same by reflexivity. unfold tok. cbn [upd wire]. rewrite !cnt_one. cbn [isReg isAck]. unfold minus.
    destruct (Nat.eq_dec c y) as [->|NC].
    + rewrite PY in Pc. injection Pc as <-. rewrite pend_other by congruence. rewrite Nat.eqb_refl. destruct (Nat.eqb_spec c0 y) as [Q|_]; [pose proof (not_self T HT _ _ P); congruence|]. cbn [andb].
      unfold settled, here. rewrite upd_same. unfn. rewrite findF_app. cbn [fe_name]. destruct (String.eqb_spec n0 n) as [<-|].
      * rewrite F. cbn [fe_gid]. rewrite Z.eqb_refl. lia.
      * destruct (findF (n_feds (nodes s y)) n); lia.
    + rewrite settled_other, here_other by exact NC. destruct (Nat.eqb_spec y c) as [Q|_]; [congruence|]. cbn [andb].
      destruct (Nat.eq_dec p y) as [->|NP].
      * unfold pend. rewrite upd_same. unfn. rewrite findF_app. cbn [fe_name]. destruct (String.eqb_spec n0 n) as [<-|].
        -- rewrite F. cbn [fe_gid fe_route]. rewrite Z.eqb_refl, (routes_lookup T s y r c0 K RC). cbn [andb]. destruct (Nat.eqb c0 c); cbn [andb]; lia.
        -- rewrite andb_false_r. destruct (findF (n_feds (nodes s y)) n); lia.
      * rewrite pend_other by exact NP. destruct (Nat.eqb_spec c0 c) as [<-|]; cbn [andb]; [congruence|lia].
Qed.

Lemma ackFed_balanced s y z n0 src dst err o ok : inv T s -> small T s -> okp T s (y, z, FedAck n0 src dst err o) ->
  (t_core T z = false -> settled s z n0 = 0%nat) ->
  forall p c n, par c = Some p ->
  (tok (deliver T s z (FedAck n0 src dst err o) ok) p c n + (if t_core T z then minus z n0 c n else 0) + (here s c n + asked s c n) =
   tok s p c n + minus z n0 c n + (here (deliver T s z (FedAck n0 src dst err o) ok) c n + asked (deliver T s z (FedAck n0 src dst err o) ok) c n))%nat.
Proof.
  intros I S (P & B & BF & D) ST p c n Pc. pose proof (not_self T HT _ _ Pc) as NS. pose proof (i_nodes _ _ I z) as K. pose proof (not_root T HT _ _ P) as NR.
  unfold deliver, receive. rewrite (static_core T s z I). destruct (t_core T z) eqn:C.
  - assert (G : forall st, n_feds st = n_feds (nodes s z) -> n_routes st = n_routes (nodes s z) -> map fst (n_local st) = map fst (n_local (nodes s z)) ->
      balanced s (upd s z st (wire s ++ packets T z st [])) (fun _ _ => 0%nat)).
    { intros st F R L. apply balanced_same; [exact I|..].
      - apply upd_feds, F.
      - apply upd_routes. exists []. rewrite R. symmetry. apply app_nil_r.
      - intros x. destruct (Nat.eq_dec x z) as [->|N]; [rewrite upd_same; exact L|rewrite upd_other by exact N; reflexivity].
      - intros c1 n1. cbn [upd wire]. rewrite packets_nil, app_nil_r. lia. }
    unfold coreFedAck. destruct err; cbn [fst snd].
    + pose proof (G (nodes s z) eq_refl eq_refl eq_refl p c n Pc) as Q. cbv beta in Q. lia.
    + match goal with |- context [upd s z ?st _] => pose proof (G st) as Q end. specialize (Q eq_refl eq_refl). cbn [set_n_local n_local] in Q.
      assert (L : map fst (map (fun f : string * Z => if String.eqb (fst f) n0 then (fst f, dst) else f) (n_local (nodes s z))) = map fst (n_local (nodes s z)))
        by (rewrite map_map; apply map_ext; intros f; destruct (String.eqb (fst f) n0); reflexivity).
      specialize (Q L p c n Pc). cbv beta in Q. lia.
  - specialize (ST eq_refl). destruct BF as [[-> LO]|[NO HF]].
    + exfalso. unfold inLocal in LO. apply in_map_iff in LO. destruct LO as ((n1 & g1) & _ & Q). destruct (k_local _ _ _ K n1 g1 Q). congruence.
    + destruct (hasF_find T s z n0 o I HF) as (g & r & F & IN). unfold brokerFedAck. rewrite F. cbn [fe_gid fe_route].
      assert (G : g = invalidId).
      { unfold settled in ST. rewrite F in ST. cbn [fe_gid] in ST. destruct (Z.eqb_spec g invalidId); [assumption|lia]. }
      subst g. change (isValid invalidId) with false. cbn [fst snd].
      destruct (k_feds _ _ _ K n0 invalidId r o IN) as (c0 & RC & BC & BH). pose proof (proj1 (proj1 (k_routes _ _ _ K) r c0 RC)) as PC.
      unfold packets. cbn [flat_map fst snd app]. rewrite (resolve_route T s z r c0 I RC) by reflexivity. cbn [app].
      assert (DV : dst <> invalidId).
      { destruct err; [rewrite D; discriminate|]. destruct D as [RF _]. destruct (owner_valid T s dst o I S (or_intror (ex_intro (fun n => regF T s n dst o) n0 RF))) as (V & _).
        intros ->. discriminate. }
      apply Z.eqb_neq in DV. rewrite asked_same by reflexivity. unfold tok. cbn [upd wire]. rewrite !cnt_one. cbn [isReg isAck]. unfold minus.
      destruct (Nat.eq_dec c z) as [->|NC].
      * rewrite P in Pc. injection Pc as <-. rewrite pend_other by congruence. rewrite Nat.eqb_refl. destruct (Nat.eqb_spec c0 z) as [E|_]; [pose proof (not_self T HT _ _ PC); congruence|]. cbn [andb].
        unfold settled, here. rewrite upd_same. unfn. rewrite findF_upd. destruct (String.eqb_spec n n0) as [->|].
        -- rewrite F. cbn [fe_gid]. rewrite DV, Z.eqb_refl, String.eqb_refl. lia.
        -- destruct (String.eqb_spec n0 n) as [E|_]; [congruence|]. destruct (findF (n_feds (nodes s z)) n); lia.
      * rewrite settled_other, here_other by exact NC. destruct (Nat.eqb_spec z c) as [E|_]; [congruence|]. cbn [andb]. destruct (Nat.eq_dec p z) as [->|NP].
        -- unfold pend. rewrite upd_same. unfn. rewrite findF_upd. destruct (String.eqb_spec n n0) as [->|].
           ++ rewrite F. cbn [fe_gid fe_route]. rewrite DV. rewrite Z.eqb_refl, (routes_lookup T s z r c0 K RC). cbn [andb]. rewrite String.eqb_refl, andb_true_r. destruct (Nat.eqb c0 c); lia.
           ++ destruct (String.eqb_spec n0 n) as [E|_]; [congruence|]. rewrite andb_false_r. destruct (findF (n_feds (nodes s z)) n); lia.
        -- rewrite pend_other by exact NP. destruct (Nat.eqb_spec c0 c) as [<-|]; cbn [andb]; [congruence|lia].
Qed.

(** the balance of every step *)
Lemma step_balanced s e : noResend e -> inv T s -> small T s -> small T (step T s e) -> balanced s (step T s e) (fun c n => (told T s e c n + lostNow s e c n)%nat).
Proof.
  intros NR I S S'. assert (ID : balanced s s (fun _ _ => 0%nat)) by (intros p c n P; lia).
  assert (T0 : forall (c : nat) (n : string) (b : nat), (if t_core T c then 0 else 0)%nat = 0%nat) by (intros c n b; destruct (t_core T c); reflexivity).
  destruct e as [x|x|x n ct|k ok|k]; cbn [step noResend] in *; [| contradiction | | |].
  - intros p c n P. unfold told, lostNow, answersNow. rewrite (T0 c n 0%nat). revert p c n P. change (balanced s (match par x with Some p => mkNet (nodes s) (wire s ++ [(x, p, RegBroker (t_name T x) invalidId x 0)]) | None => s end) (fun _ _ => 0%nat)).
    destruct (par x) as [p|] eqn:P; [|exact ID]. apply balanced_same; [exact I|reflexivity| |reflexivity|].
    + intros y. exists []. symmetry. apply app_nil_r.
    + intros c n. cbn [wire]. rewrite !cnt_one. cbn [isReg isAck]. lia.
  - intros p c n' P. unfold told, lostNow, answersNow. rewrite (T0 c n' 0%nat). revert p c n' P.
    match goal with |- forall p c n', _ -> (tok ?s' _ _ _ + _ + _ = _)%nat => change (balanced s s' (fun _ _ => 0%nat)) end.
    destruct (t_core T x) eqn:C; cbn [andb]; [|exact ID]. destruct (isValid (n_id (nodes s x))); cbn [andb]; [|exact ID].
    destruct (Z.eqb_spec (n_id (nodes s x)) parentId) as [|N]; cbn [negb andb]; [exact ID|]. destruct (existsb _ _); cbn [negb]; [exact ID|].
    destruct (par x) as [px|] eqn:P; [|exact ID]. intros p c n' Pc. cbv beta. unfold tok. set (st := set_n_local _ _). set (w := wire s ++ _). change (mkNet (setNode (nodes s) x st) w) with (upd s x st w).
    rewrite (pend_grow s (upd s x st w) p c n' I); [|apply upd_feds; reflexivity|apply upd_routes; exists []; symmetry; apply app_nil_r].
    assert (F : n_feds (nodes (upd s x st w) c) = n_feds (nodes s c)) by (apply upd_feds; reflexivity). unfold settled, here. rewrite F. cbn [upd wire]. unfold w. rewrite !cnt_one. cbn [isReg isAck].
    destruct (Nat.eqb_spec x c) as [<-|NC]; cbn [andb].
    + unfold asked. rewrite upd_same. unfold st. unfn. rewrite map_app, filter_app, app_length. cbn [map filter fst]. rewrite (String.eqb_sym n n'). destruct (String.eqb n' n); cbn [length]; lia.
    + rewrite asked_other by congruence. lia.
  - destruct (nth_error (wire s) k) as [[[y z] m]|] eqn:Q.
    2:{ intros p c n P. unfold told, lostNow, answersNow. rewrite Q, (T0 c n 0%nat). lia. }
    pose proof (lose_inv T s k I) as I0. set (s0 := mkNet (nodes s) (without k (wire s))) in *.
    assert (S0 : small T s0) by exact S. assert (OK : okp T s0 (y, z, m)).
    { apply (le_okp T s s0); [intros x; apply nle_refl|apply (root_flag T s I)|]. apply (i_wire _ _ I). apply (nth_error_In _ k), Q. }
    assert (E : (let '(st, out) := receive (nodes s z) m ok in mkNet (setNode (nodes s) z st) (without k (wire s) ++ packets T z st out)) = deliver T s0 z m ok).
    { unfold deliver, upd. change (nodes s0) with (nodes s). change (wire s0) with (without k (wire s)). destruct (receive (nodes s z) m ok). reflexivity. }
    rewrite E in *. intros p c n Pc. cbv beta. unfold told, lostNow, answersNow. rewrite Q.
    assert (TK : tok s p c n = (tok s0 p c n + (if isReg c n (y, z, m) then 1 else 0) + (if isAck c n (y, z, m) then 1 else 0))%nat).
    { unfold tok. rewrite (cnt_without (isReg c n) _ _ _ Q), (cnt_without (isAck c n) _ _ _ Q). change (wire s0) with (without k (wire s)). change (pend s0 p c n) with (pend s p c n). change (settled s0 c n) with (settled s c n). lia. }
    change (here s c n) with (here s0 c n). change (asked s c n) with (asked s0 c n).
    destruct m as [n0 src a ct|n0 src ct o|n0 src dst err o|n0 src dst err o]; cbn [isReg isAck] in TK.
    + assert (ct = 0) by apply OK. subst ct. rewrite (T0 c n 0%nat). unfold deliver, receive. rewrite (static_core T s0 z I0), (parent_core T HT y z) by apply OK.
      pose proof (calm_balanced s0 z _ I0 (calm_registration (nodes s0 z) n0 src a ok) p c n Pc) as Bl. cbv beta in Bl. lia.
    + rewrite (T0 c n 0%nat). pose proof (regFed_balanced s0 y z n0 src ct o ok I0 S0 S' OK p c n Pc) as Bl. unfold minus in Bl. lia.
    + rewrite (T0 c n 0%nat). unfold deliver, receive. rewrite (static_core T s0 z I0). destruct (t_core T z).
      * assert (CA : calm (nodes s0 z) (coreBrokerAck (nodes s0 z) n0 src dst err)).
        { unfold coreBrokerAck. destruct (_ && _); [|apply calm_refl; reflexivity]. split; [reflexivity|]. split; [exists []; symmetry; apply app_nil_r|]. split; reflexivity. }
        pose proof (calm_balanced s0 z _ I0 CA p c n Pc) as Bl. cbv beta in Bl. lia.
      * assert (CA : calm (nodes s0 z) (brokerBrokerAck (nodes s0 z) n0 src dst err o)).
        { apply calm_brokerAck. intros m M. destruct (k_delay _ _ _ (i_nodes _ _ I0 z) m M) as (? & ? & ? & -> & _). reflexivity. }
        pose proof (calm_balanced s0 z _ I0 CA p c n Pc) as Bl. cbv beta in Bl. lia.
    + assert (ST : t_core T z = false -> settled s0 z n0 = 0%nat).
      { intros C. assert (P : par z = Some y) by apply OK. pose proof (i_toks _ _ I y z n0 P C) as H. unfold tok in H. rewrite (cnt_without (isAck z n0) _ _ _ Q) in H. cbn [isAck] in H.
        rewrite Nat.eqb_refl, String.eqb_refl in H. cbn [andb] in H. change (settled s0 z n0) with (settled s z n0). unfold settled, here in *. destruct (findF (n_feds (nodes s z)) n0) as [f|]; [|reflexivity].
        destruct (fe_gid f =? invalidId); [reflexivity|lia]. }
      pose proof (ackFed_balanced s0 y z n0 src dst err o ok I0 S0 OK ST p c n Pc) as Bl. unfold minus in Bl.
      assert (X : (if t_core T c then if Nat.eqb z c && String.eqb n0 n then 1 else 0 else 0)%nat = (if t_core T z then if Nat.eqb z c && String.eqb n0 n then 1 else 0 else 0)%nat).
      { destruct (Nat.eqb_spec z c) as [->|]; [reflexivity|]. cbn [andb]. destruct (t_core T c), (t_core T z); reflexivity. }
      rewrite X. lia.
  - intros p c n Pc. cbv beta. unfold told, answersNow. rewrite (T0 c n 0%nat). cbn [lostNow]. unfold tok. cbn [wire]. change (pend (mkNet (nodes s) _) p c n) with (pend s p c n).
    change (settled (mkNet (nodes s) _) c n) with (settled s c n). change (here (mkNet (nodes s) _) c n) with (here s c n). change (asked (mkNet (nodes s) _) c n) with (asked s c n).
    destruct (nth_error (wire s) k) as [q|] eqn:Q.
    + rewrite (cnt_without (isReg c n) _ _ _ Q), (cnt_without (isAck c n) _ _ _ Q). lia.
    + assert (W : without k (wire s) = wire s). { clear - Q. revert k Q. induction (wire s) as [|a l IH]; intros k Q; [destruct k; reflexivity|]. destruct k; [discriminate|]. cbn in *. f_equal. apply IH, Q. }
      rewrite W. lia.
Qed.
End Tree.

(** ** Theorems *)
Fixpoint losses (T : topology) (es : list event) (s : net) (c : nat) (n : string) : nat :=
  match es with [] => 0%nat | e :: es => (lostNow s e c n + losses T es (step T s e) c n)%nat end.
Lemma run_balance T es s p K n : tree T -> Forall noResend es -> inv T s -> small T (run T es s) -> t_parent T K = Some p -> 
  (tok (run T es s) p K n + (if t_core T K then answers T es s K n else 0) + losses T es s K n + (here s K n + asked s K n) =
   tok s p K n + (here (run T es s) K n + asked (run T es s) K n))%nat.
Proof.
  intros HT. revert s. induction es as [|e es IH]; intros s F I S P; [cbn [run fold_left answers losses]; destruct (t_core T K); lia|].
  inversion F as [|? ? F1 F2]; subst. cbn [run fold_left answers losses] in *. fold (run T es (step T s e)) in *.
  assert (S1 : small T (step T s e)) by (apply (small_run T es), S). assert (S0 : small T s) by (apply (small_back T s e), S1).
  pose proof (step_inv T HT s e F1 I S0 S1) as I1. pose proof (IH (step T s e) F2 I1 S P) as B1. pose proof (step_balanced T HT s e F1 I S0 S1 p K n P) as B2. cbv beta in B2. unfold told in B2.
  destruct (t_core T K); lia.
Qed.
Lemma start_balance T p K n : (tok (net0 T) p K n = 0 /\ here (net0 T) K n = 0 /\ asked (net0 T) K n = 0)%nat.
Proof. auto. Qed.
(** a core asks for one name once *)
Lemma local_nodup_step T s e : (forall x, NoDup (map fst (n_local (nodes s x)))) -> forall x, NoDup (map fst (n_local (nodes (step T s e) x))).
Proof.
  intros H x. destruct e as [y|y|y n c|k ok|k]; cbn [step].
  - destruct (t_parent T y); apply H.
  - destruct (t_parent T y); apply H.
  - destruct (t_core T y && isValid (n_id (nodes s y)) && negb (n_id (nodes s y) =? parentId)); cbn [andb]; [|apply H].
    destruct (existsb _ _) eqn:E; cbn [negb]; [apply H|]. destruct (t_parent T y); [|apply H]. cbn [nodes]. unfold setNode. destruct (Nat.eqb_spec x y) as [->|]; [|apply H].
    cbn. rewrite map_app. apply NoDup_snoc; [apply H|]. intros J. apply in_map_iff in J. destruct J as (f & J1 & J2). cbn in J1.
    assert (X : existsb (fun f => String.eqb (fst f) n) (n_local (nodes s y)) = true) by (apply existsb_exists; exists f; split; [exact J2|rewrite J1; apply String.eqb_refl]). congruence.
  - destruct (nth_error (wire s) k) as [[[y z] m]|]; [|apply H]. destruct (receive (nodes s z) m ok) as [st out] eqn:R. cbn [nodes]. unfold setNode. destruct (Nat.eqb_spec x z) as [->|]; [|apply H].
    assert (E : map fst (n_local st) = map fst (n_local (nodes s z))); [|rewrite E; apply H].
    replace st with (fst (receive (nodes s z) m ok)) by (rewrite R; reflexivity). clear R st out. set (v := nodes s z). clearbody v. unfold receive. destruct (n_core v).
    + destruct m as [n src a c|n src c o|n src dst err o|n src dst err o]; unfold coreBrokerAck, coreFedAck.
      * destruct (String.eqb n (n_name v)); reflexivity.
      * reflexivity.
      * destruct (_ && _); reflexivity.
      * destruct err; [reflexivity|]. cbn. rewrite map_map. apply map_ext. intros f. destruct (String.eqb (fst f) n); reflexivity.
    + f_equal. destruct m as [n src a c|n src c o|n src dst err o|n src dst err o].
      * unfold brokerRegistration. destruct (match _ with Some _ => _ | None => _ end) eqn:Q.
        unfold brokerErrorAck in Q.
        repeat match type of Q with context [if ?b then _ else _] => destruct b | context [match ?o with Some _ => _ | None => _ end] => destruct o end; cbn in Q; injection Q as <- <-; reflexivity.
      * unfold fedRegistration. destruct ok; cbn [negb]; [|reflexivity]. destruct (findF (n_feds v) n); [reflexivity|]. destruct (n_root v); [reflexivity|]. cbn. destruct (isValid (n_id v)); reflexivity.
      * unfold brokerBrokerAck. destruct (String.eqb n (n_name v)); [destruct err; reflexivity|]. destruct (findB (n_brokers v) n) as [e|]; [|reflexivity]. destruct (be_gid e =? dst); reflexivity.
      * unfold brokerFedAck. destruct (findF (n_feds v) n); reflexivity.
  - apply H.
Qed.
Lemma local_nodup T es s : (forall x, NoDup (map fst (n_local (nodes s x)))) -> forall x, NoDup (map fst (n_local (nodes (run T es s) x))).
Proof. revert s. induction es as [|e es IH]; intros s H; [exact H|]. cbn [run fold_left]. apply IH, local_nodup_step, H. Qed.
Lemma asked_one l n : NoDup l -> length (filter (String.eqb n) l) = if in_dec string_dec n l then 1%nat else 0%nat.
Proof.
  induction l as [|a l IH]; intros N; [reflexivity|]. inversion N as [|? ? N1 N2]; subst. cbn [filter]. destruct (String.eqb_spec n a) as [->|E].
  - destruct (in_dec string_dec a (a :: l)) as [_|Q]; [|exfalso; apply Q; left; reflexivity]. cbn [length]. rewrite (IH N2). destruct (in_dec string_dec a l); [contradiction|reflexivity].
  - rewrite (IH N2). destruct (in_dec string_dec n l) as [Q|Q], (in_dec string_dec n (a :: l)) as [Q'|Q']; try reflexivity; [exfalso; apply Q'; right; exact Q|]. destruct Q' as [Q'|Q']; [congruence|contradiction].
Qed.
Lemma core_has_parent T K : tree T -> t_core T K = true -> exists p, t_parent T K = Some p.
Proof. intros HT C. apply (has_parent T HT). intros ->. rewrite (root_core T HT) in C. discriminate. Qed.

(** However messages are delayed, reordered, refused or lost, registerFederate of one name at one core is answered at most
    once. *)
Theorem C44_answered_at_most_once T es K n : fairHistory T es -> t_core T K = true -> (answers T es (net0 T) K n <= 1)%nat.
Proof.
  intros (HT & F & S) C. destruct (core_has_parent T K HT C) as [p P]. pose proof (run_balance T es (net0 T) p K n HT F (inv0 T) S P) as B. rewrite C in B.
  pose proof (history_inv T es (conj HT (conj F S))) as I.
  destruct (start_balance T p K n) as (B0 & B1 & B2). rewrite B0, B1, B2 in B. destruct (here_core T (run T es (net0 T)) K n I C) as [B3 _]. rewrite B3 in B.
  unfold asked in B. rewrite asked_one in B by (apply local_nodup; intros x; constructor). destruct (in_dec string_dec n _); lia.
Qed.

(** When nothing is lost and nothing is on its way any more, every registerFederate has been answered, exactly once. *)
Theorem C44_every_registration_is_answered T es K n : fairHistory T es -> Forall noLoss es -> wire (run T es (net0 T)) = [] ->
  In n (map fst (n_local (nodes (run T es (net0 T)) K))) -> answers T es (net0 T) K n = 1%nat.
Proof.
  intros H NL W L. pose proof H as (HT & F & S). pose proof (history_inv T es H) as I. set (s := run T es (net0 T)) in *.
  assert (NLS : forall st c m, losses T es st c m = 0%nat).
  { clear - NL. intros st c m. revert st. induction NL as [|e es E NL IH]; intros st; [reflexivity|]. cbn [losses]. rewrite IH. destruct e; try contradiction; reflexivity. }
  assert (BAL : forall p c m, t_parent T c = Some p -> (pend s p c m + settled s c m + (if t_core T c then answers T es (net0 T) c m else 0) = here s c m + asked s c m)%nat).
  { intros p c m P. pose proof (run_balance T es (net0 T) p c m HT F (inv0 T) S P) as B. fold s in B. rewrite NLS in B. destruct (start_balance T p c m) as (B0 & B1 & B2). rewrite B0, B1, B2 in B.
    unfold tok in B. rewrite W in B. cbn [cnt filter length] in B. unfold cnt in B. cbn [filter length] in B. lia. }
  assert (PEND : forall d p c m, t_depth T p = d -> t_parent T c = Some p -> pend s p c m = 0%nat).
  { assert (ROOT : forall c m, pend s (t_root T) c m = 0%nat).
    { intros c m. unfold pend. destruct (findF (n_feds (nodes s (t_root T))) m) as [e|] eqn:Q; [|reflexivity]. destruct (findF_in _ _ _ Q) as [J _]. destruct (In_nth_error _ _ J) as [k K1].
      destruct (proj2 (i_rootOk _ _ I) k e K1) as (ct & _ & G). assert (k < length (n_feds (nodes s (t_root T))))%nat by (apply nth_error_Some; congruence).
      destruct S as [_ S2]. fold s in S2. pose proof (newFed_valid (Z.of_nat k) ct ltac:(lia)) as V. rewrite <- G in V. apply Z.eqb_neq in V. rewrite V. reflexivity. }
    induction d as [|d IH]; intros p c m D P; (destruct (Nat.eq_dec p (t_root T)) as [->|N]; [apply ROOT|]); destruct (has_parent T HT p N) as [q Q]; pose proof (parent_depth T HT _ _ Q); [lia|].
    pose proof (BAL q p m Q) as B. rewrite (IH q p m ltac:(lia) Q), (parent_core T HT _ _ P) in B.
    assert (A : asked s p m = 0%nat).
    { unfold asked. destruct (n_local (nodes s p)) as [|[n1 g1] l] eqn:LL; [reflexivity|]. exfalso.
      destruct (k_local _ _ _ (i_nodes _ _ I p) n1 g1) as [C _]; [rewrite LL; left; reflexivity|]. rewrite (parent_core T HT _ _ P) in C. discriminate. }
    rewrite A in B. unfold settled, here in B. unfold pend. destruct (findF (n_feds (nodes s p)) m) as [e|]; [|reflexivity]. destruct (fe_gid e =? invalidId); [lia|reflexivity]. }
  assert (C : t_core T K = true).
  { apply in_map_iff in L. destruct L as ((n1 & g1) & _ & L). apply (k_local _ _ _ (i_nodes _ _ I K) n1 g1 L). }
  destruct (core_has_parent T K HT C) as [p P]. pose proof (BAL p K n P) as B. rewrite (PEND _ p K n eq_refl P), C in B. destruct (here_core T s K n I C) as [B1 B2]. rewrite B1, B2 in B.
  unfold asked in B. rewrite asked_one in B by (apply local_nodup; intros x; constructor). destruct (in_dec string_dec n _) as [_|Q]; [lia|contradiction].
Qed.

(** An answer without the error flag carries the id which registerFederate returns. *)
Theorem C44_the_answer_is_the_id T es k ok K n y src g o : fairHistory T (es ++ [E_deliver k ok]) ->
  nth_error (wire (run T es (net0 T))) k = Some (y, K, FedAck n src g false o) -> t_core T K = true ->
  In n (map fst (n_local (nodes (run T es (net0 T)) K))) -> registered (run T (es ++ [E_deliver k ok]) (net0 T)) K n g.
Proof.
  intros (HT & F & S) Q C L. unfold run in *. rewrite fold_left_app in *. fold (run T es (net0 T)) in *. set (s := run T es (net0 T)) in *. cbn [fold_left] in *.
  apply Forall_app in F. destruct F as [F _]. pose proof (small_back T s _ S) as S0. assert (I : inv T s) by (apply history_inv; split; [exact HT|split; [exact F|exact S0]]).
  pose proof (i_wire _ _ I _ (nth_error_In _ _ Q)) as OK. cbn [step]. rewrite Q. unfold receive. rewrite (static_core T s K I), C. unfold coreFedAck. cbv beta iota zeta. unfold registered. cbn [nodes]. split.
  - unfold setNode. rewrite Nat.eqb_refl. cbn. apply in_map_iff in L. destruct L as (f & E & L). apply in_map_iff. exists f. split; [|exact L]. rewrite E, String.eqb_refl. reflexivity.
  - destruct OK as (_ & _ & _ & RF & _). destruct (owner_valid T s g o I S0 (or_intror (ex_intro (fun n => regF T s n g o) n RF))) as (V & _). intros ->. discriminate.
Qed.

(** ** Examples *)
(** a root 0 with a broker 1 and a core 3, and a core 2 behind the broker *)
Definition T0 : topology :=
  mkTopo 0 (fun x => match x with 0%nat => None | 2%nat => Some 1%nat | _ => Some 0%nat end)
         (fun x => match x with 0%nat => 0%nat | 2%nat => 2%nat | _ => 1%nat end)
         (fun x => match x with 0%nat | 1%nat => false | _ => true end)
         (fun x => match x with 0%nat => "root" | 1%nat => "b" | 2%nat => "c" | _ => "d" end)%string.
Lemma T0_tree : tree T0.
Proof.
  split; [reflexivity|]. split; [reflexivity|]. split.
  - intros x N. destruct x as [|[|[|x]]]; [contradiction| | |]; eexists; reflexivity.
  - intros x p H. destruct x as [|[|[|x]]]; [discriminate| | |]; injection H as <-; split; reflexivity.
Qed.
(** the core 2 registers before its broker has its id; then a federate at each core, and a second "f" which is refused *)
Definition es0 : list event :=
  [E_connect 2; E_deliver 0 true; E_connect 1; E_deliver 0 true; E_deliver 0 true; E_connect 3; E_deliver 1 true; E_deliver 0 true; E_deliver 0 true; E_deliver 0 true;
   E_deliver 0 true; E_register 2 "f" 0; E_register 3 "g" 3; E_deliver 1 true; E_deliver 0 true; E_deliver 0 true; E_deliver 0 true; E_deliver 0 true; E_deliver 0 true; E_register 3 "f" 0; E_deliver 0 true; E_deliver 0 true].
Example C44_nonvacuous :
  let s := run T0 es0 (net0 T0) in
  tree T0 /\ forallb (fun e => match e with E_resend _ | E_lose _ => false | _ => true end) es0 = true /\
  wire s = [] /\ map (fun x => n_id (nodes s x)) [0; 1; 2; 3]%nat = [1; brokerShift; brokerShift + 2; brokerShift + 1] /\
  n_local (nodes s 2) = [("f"%string, fedShift + 1)] /\ n_local (nodes s 3) = [("g"%string, fedShift + 3 * priorityBlock); ("f"%string, invalidId)] /\
  answers T0 es0 (net0 T0) 3 "f" = 1%nat /\ follow T0 s 4 3%nat (fedShift + 1) = Some (2%nat, 3%nat) /\
  (length (n_brokers (nodes s 0)) = 3 /\ length (n_feds (nodes s 0)) = 2)%nat.
Proof. split; [apply T0_tree|]. vm_compute. auto 10. Qed.

(** ** What fails *)
(** A repeated registration (sent when the first got no answer) is answered by name: a second core with a name in use is
    given the id of the first one, and from then on the first one's commands are sent to it. *)
Definition T1 : topology :=
  mkTopo 0 (fun x => match x with 0%nat => None | _ => Some 0%nat end) (fun x => match x with 0%nat => 0%nat | _ => 1%nat end)
         (fun x => match x with 0%nat => false | _ => true end) (fun x => match x with 0%nat => "root" | _ => "a" end)%string.
Theorem C44_repeated_registration_refuted : exists T es, let s := run T es (net0 T) in
  tree T /\ connected s 1%nat /\ connected s 2%nat /\ n_id (nodes s 1%nat) = n_id (nodes s 2%nat) /\ follow T s 2 0%nat (n_id (nodes s 1%nat)) = Some (2%nat, 1%nat).
Proof.
  exists T1, [E_connect 1; E_deliver 0 true; E_deliver 0 true; E_connect 2; E_lose 0; E_resend 2; E_deliver 0 true; E_deliver 0 true]. cbv zeta.
  split.
  - split; [reflexivity|]. split; [reflexivity|]. split; [intros [|x] N; [contradiction|eexists; reflexivity]|]. intros [|x] p H; [discriminate|]. injection H as <-. split; reflexivity.
  - split; [vm_compute; discriminate|]. split; [vm_compute; discriminate|]. split; vm_compute; reflexivity.
Qed.
(** A repeated registration at a broker which has no id yet is answered with the invalid id. *)
Theorem C44_invalid_id_acknowledged_refuted : exists T es, let s := run T es (net0 T) in
  tree T /\ connected s 2%nat /\ n_id (nodes s 2%nat) = invalidId.
Proof.
  exists T0, [E_connect 2; E_deliver 0 true; E_resend 2; E_deliver 0 true; E_deliver 0 true]. split; [apply T0_tree|]. split; [vm_compute; discriminate|vm_compute; reflexivity].
Qed.
(** Registrations of brokers and cores are not always answered: the refusal of a core which is named like its broker stops
    at that broker.  [nodeAnswers]: the answers which arrive at the node [x]. *)
Definition nodeAnswersNow (s : net) (e : event) (x : nat) : nat :=
  match e with
  | E_deliver k _ => match nth_error (wire s) k with Some (_, z, BrokerAck _ _ _ _ _) => if Nat.eqb z x then 1%nat else 0%nat | _ => 0%nat end
  | _ => 0%nat
  end.
Fixpoint nodeAnswers (T : topology) (es : list event) (s : net) (x : nat) : nat :=
  match es with [] => 0%nat | e :: es => (nodeAnswersNow s e x + nodeAnswers T es (step T s e) x)%nat end.
Definition T2 : topology :=
  mkTopo 0 (fun x => match x with 0%nat => None | 2%nat => Some 1%nat | _ => Some 0%nat end)
         (fun x => match x with 0%nat => 0%nat | 2%nat => 2%nat | _ => 1%nat end)
         (fun x => match x with 0%nat | 1%nat => false | _ => true end)
         (fun x => match x with 0%nat => "root" | _ => "b" end)%string.
Theorem C44_core_named_like_its_broker_refuted : exists T es, let s := run T es (net0 T) in
  fairHistory T es /\ Forall noLoss es /\ In (E_connect 2) es /\ wire s = [] /\ nodeAnswers T es (net0 T) 2 = 0%nat.
Proof.
  exists T2, [E_connect 1; E_deliver 0 true; E_deliver 0 true; E_connect 2; E_deliver 0 true; E_deliver 0 true; E_deliver 0 true]. cbv zeta. split; [split; [|split]|].
  - split; [reflexivity|]. split; [reflexivity|]. split.
    + intros x N. destruct x as [|[|[|x]]]; [contradiction| | |]; eexists; reflexivity.
    + intros x p H. destruct x as [|[|[|x]]]; [discriminate| | |]; injection H as <-; split; reflexivity.
  - repeat constructor.
  - split; vm_compute; discriminate.
  - split; [repeat constructor|]. split; [right; right; right; left; reflexivity|]. split; vm_compute; reflexivity.
Qed.
(** the hypotheses of the theorems above are met by the history of the example *)
Lemma C44_example_history : fairHistory T0 es0 /\ Forall noLoss es0.
Proof. split; [split; [apply T0_tree|split; [repeat constructor|split; vm_compute; discriminate]]|repeat constructor]. Qed.
