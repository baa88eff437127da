(** * C50: a message reaches the endpoint it is sent to, once and in order *)
From Coq Require Import String ZArith Bool List Lia ZifyBool.
From Verif Require Import HTime Action Interfaces PropsInput Ids Route RouteInv PropsRoute Deliver PropsDeliver Mail.
Import ListNotations.
Open Scope Z_scope.

Ltac edge := match goal with |- context [Nat.eqb ?a ?x && Nat.eqb ?b ?y] => destruct (Nat.eqb a x && Nat.eqb b y) end.

Section Props.
Variable T : topology.
Notation mstep := (mstep T).
Notation mrun := (mrun T).

(** ** Specification *)
Definition mailsIn (l : list entry) : list msg := flat_map (fun e => match e with Mail m => [m] | Reg _ _ => [] end) l.
(** how often the message [q] is on the connection from x to y, and how many ends it has come to *)
Definition onWay (s : msys) (q x y : nat) : nat := length (filter (fun m => Nat.eqb (k_seq m) q) (mailsIn (p_links s x y))).
Definition ended (s : msys) (q : nat) : nat := length (filter (fun l => Nat.eqb (fst l) q) (p_log s)).
(** the k-th message of a call of send goes to the k-th target, with its handle and name *)
Definition toTargets (c : nat) (a : Z * Z) (data : list Z) (ts : list ((Z * Z) * string)) : list msg :=
  map (fun kt => mkMsg (c + fst kt) a (snd (snd kt)) (Some (fst (snd kt))) false data) (combine (seq 0 (length ts)) ts).
(** the messages which one event sends, as they are sent *)
Definition mailsOf (s : msys) (e : mevent) : list msg :=
  match e with
  | P_send K a n opt data => if localFed (nodes (p_net s) K) (fst a) then [mkMsg (p_count s) a n None opt data] else []
  | P_targets K a ts data => if localFed (nodes (p_net s) K) (fst a) then toTargets (p_count s) a data ts else []
  | _ => []
  end.
Fixpoint mailsFrom (s : msys) (es : list mevent) : list msg := match es with [] => [] | e :: r => mailsOf s e ++ mailsFrom (mstep s e) r end.
Definition mails (es : list mevent) : list msg := mailsFrom (msys0 T) es.

Lemma copies_toTargets c a data ts : copies c a data ts = toTargets c a data ts.
Proof.
  unfold toTargets. replace c with (c + 0)%nat at 1 by lia. generalize 0%nat. induction ts as [|t ts IH]; intros k; [reflexivity|]. cbn [copies length seq combine map fst snd]. rewrite <- IH. f_equal. f_equal. lia.
Qed.
(** ** the effect of an event on the connections *)
Lemma mrun_snoc es e : mrun (es ++ [e]) = mstep (mrun es) e.
Proof. unfold Mail.mrun. rewrite fold_left_app. reflexivity. Qed.
Lemma mails_snoc es e : mails (es ++ [e]) = mails es ++ mailsOf (mrun es) e.
Proof.
  unfold mails, Mail.mrun. generalize (msys0 T). induction es as [|x es IH]; intros s; cbn [mailsFrom app fold_left]; [rewrite app_nil_r; reflexivity|]. rewrite IH, app_assoc. reflexivity.
Qed.
Definition popped (x y : nat) (r : list entry) (s : msys) : msys := set_p_links (fun a b => if Nat.eqb a x && Nat.eqb b y then r else p_links s a b) s.
Lemma attend_some x y s e r : p_links s x y = e :: r -> attend T x y s = does T y e (popped x y r s).
Proof. unfold attend. intros ->. reflexivity. Qed.
Lemma attend_none x y s : p_links s x y = [] -> attend T x y s = s.
Proof. unfold attend. intros ->. reflexivity. Qed.
(** what a node does with a message: it goes on over one connection, or comes to an end *)
Definition goesOn (y : nat) (m m' : msg) (s s' : msys) : Prop := exists z, s' = putOn y z [Mail m'] s.
Definition comesTo (m : msg) (o : outcome) (s s' : msys) : Prop :=
  (forall a b, p_links s' a b = p_links s a b) /\ p_log s' = p_log s ++ [(k_seq m, o)] /\ p_count s' = p_count s /\ p_names s' = p_names s /\ p_own s' = p_own s /\ p_net s' = p_net s
  /\ match o with Delivered h => forall g, p_box s' g = if Z.eqb g (fst h) then p_box s g ++ [setDest h m] else p_box s g | _ => p_box s' = p_box s end.
Lemma up_mail y m s : goesOn y m m s (up T y (Mail m) s) \/ comesTo m Dropped s (up T y (Mail m) s).
Proof. unfold up. destruct (t_parent T y) as [q|]; [left; eexists; reflexivity|right]. repeat split. Qed.
Lemma route_mail y h m s : goesOn y m m s (route T y h m s) \/ comesTo m Dropped s (route T y h m s).
Proof. unfold route. destruct (hopAt _ _ _ _) as [|z|]; [right; repeat split|left; eexists; reflexivity|right; repeat split]. Qed.
Lemma does_mail y m s : let s' := does T y (Mail m) s in
  (goesOn y m m s s' \/ exists h, goesOn y m (setDest h m) s s' /\ k_dest m = None /\ lookupName (p_names s y) (k_name m) = Some h)
  \/ exists o, comesTo m o s s' /\ match o with Delivered h => match k_dest m with Some h' => h' = h | None => lookupName (p_names s y) (k_name m) = Some h end | _ => True end.
Proof.
  cbv zeta. unfold does. destruct (t_core T y).
  - unfold coreDoes. destruct (k_dest m) as [h|] eqn:D.
    + destruct (hasHandle _ _); [|destruct (up_mail y m s) as [H|H]; [auto|right; exists Dropped; auto]].
      right. unfold hand. destruct (localFed _ _); [|exists Dropped; repeat split]. exists (Delivered h). repeat split.
    + destruct (lookupName _ _) as [h|] eqn:L; [|destruct (up_mail y m s) as [H|H]; [auto|right; exists Dropped; auto]].
      right. unfold hand. destruct (localFed _ _); [|exists Dropped; repeat split]. exists (Delivered h). repeat split.
  - unfold brokerDoes. destruct (k_dest m) as [h|] eqn:D; [destruct (route_mail y h m s) as [H|H]; [auto|right; exists Dropped; auto]|].
    destruct (lookupName _ _) as [h|] eqn:L.
    + destruct (route_mail y h (setDest h m) s) as [(z & H)|H]; [left; right; exists h; split; [exists z; exact H|auto]|right; exists Dropped; auto].
    + destruct (Nat.eqb _ _); [|destruct (up_mail y m s) as [H|H]; [auto|right; exists Dropped; auto]]. right. exists (if k_opt m then Dropped else Reported). destruct (k_opt m); repeat split.
Qed.
(** what it does with the name of an endpoint: nothing, or it learns it and perhaps tells its parent *)
Lemma does_reg y n h s : let s' := does T y (Reg n h) s in
  s' = s \/ s' = learn y n h s \/ exists q, t_parent T y = Some q /\ s' = putOn y q [Reg n h] (learn y n h s).
Proof.
  cbv zeta. unfold does, coreDoes, brokerDoes, up. destruct (t_core T y); [destruct (String.eqb n ""); [auto|]|destruct (lookupName _ _); [auto|]; destruct (Nat.eqb _ _); [auto|]]; (destruct (t_parent T y) as [q|] eqn:P; [right; right; exists q; split; reflexivity|auto]).
Qed.
Lemma putOn_links x y l s a b : p_links (putOn x y l s) a b = p_links s a b ++ if Nat.eqb a x && Nat.eqb b y then l else [].
Proof. unfold putOn. cbn [p_links set_p_links]. edge; [reflexivity|rewrite app_nil_r; reflexivity]. Qed.
Lemma mailsIn_app a b : mailsIn (a ++ b) = mailsIn a ++ mailsIn b. Proof. apply flat_map_app. Qed.
Lemma mailsIn_map l : mailsIn (map Mail l) = l. Proof. induction l as [|m l IH]; [reflexivity|]. cbn. unfold mailsIn in IH. rewrite IH. reflexivity. Qed.

(** ** one place *)
Definition placed (s : msys) (q : nat) : Prop :=
  (forall x y, onWay s q x y = 0%nat) /\ ended s q = (if Nat.ltb q (p_count s) then 1 else 0)%nat
  \/ (q < p_count s)%nat /\ ended s q = 0%nat /\ exists x y, onWay s q x y = 1%nat /\ forall a b, (a, b) <> (x, y) -> onWay s q a b = 0%nat.
Lemma copies_count c a data ts q : length (filter (fun m => Nat.eqb (k_seq m) q) (copies c a data ts)) = (if Nat.leb c q && Nat.ltb q (length ts + c) then 1 else 0)%nat.
Proof.
  revert c. induction ts as [|t ts IH]; intros c.
  - cbn [copies filter length plus]. destruct (Nat.leb_spec c q), (Nat.ltb_spec q c); try reflexivity. lia.
  - cbn [copies filter k_seq length]. destruct (Nat.eqb_spec c q) as [->|N].
    + cbn [length]. rewrite IH. destruct (Nat.leb_spec (S q) q); [lia|]. cbn [andb]. destruct (Nat.leb_spec q q); [|lia]. destruct (Nat.ltb_spec q (S (length ts) + q)); [reflexivity|lia].
    + rewrite IH. destruct (Nat.leb_spec (S c) q), (Nat.leb_spec c q); try lia; cbn [andb]; [|reflexivity]. replace (length ts + S c)%nat with (S (length ts) + c)%nat by lia. reflexivity.
Qed.
Lemma sends_place K s l k q : (forall q', length (filter (fun m => Nat.eqb (k_seq m) q') l) = if Nat.leb (p_count s) q' && Nat.ltb q' (k + p_count s) then 1 else 0)%nat -> placed s q -> placed (putOn K K (map Mail l) (set_p_count (k + p_count s)%nat s)) q.
Proof.
  intros HL P. set (s' := putOn _ _ _ _). assert (OW : forall a b, onWay s' q a b = (onWay s q a b + if Nat.eqb a K && Nat.eqb b K then length (filter (fun m => Nat.eqb (k_seq m) q) l) else 0)%nat).
  { intros a b. unfold onWay, s'. rewrite putOn_links. cbn [p_links set_p_count]. rewrite mailsIn_app, filter_app, app_length. edge; [rewrite mailsIn_map; reflexivity|reflexivity]. }
  assert (CN : p_count s' = (k + p_count s)%nat) by reflexivity. assert (EN : ended s' q = ended s q) by reflexivity. clearbody s'. rewrite HL in OW. unfold placed. rewrite CN, EN.
  destruct P as [[P1 P2]|(P1 & P2 & x & y & P3 & P4)].
  - destruct (Nat.ltb_spec q (p_count s)) as [L|L].
    + left. split.
      * intros a b. rewrite OW, P1. replace (Nat.leb (p_count s) q) with false by (symmetry; apply Nat.leb_gt; exact L). edge; reflexivity.
      * rewrite P2. replace (Nat.ltb q (k + p_count s)) with true; [reflexivity|]. symmetry. apply Nat.ltb_lt. lia.
    + destruct (Nat.ltb_spec q (k + p_count s)) as [L'|L'].
      * right. split; [exact L'|]. split; [exact P2|]. exists K, K. assert (E : Nat.leb (p_count s) q = true) by (apply Nat.leb_le; exact L). rewrite E in OW. cbn [andb] in OW. split; [rewrite OW, P1, !Nat.eqb_refl; reflexivity|].
        intros a b N. rewrite OW, P1, (edge_neq _ _ _ _ N). reflexivity.
      * left. split; [|exact P2]. intros a b. rewrite OW, P1, andb_false_r. edge; reflexivity.
  - right. split; [lia|]. split; [exact P2|]. exists x, y. assert (E : Nat.leb (p_count s) q = false) by (apply Nat.leb_gt; exact P1). rewrite E in OW. cbn [andb] in OW.
    split; [rewrite OW, P3; edge; reflexivity|]. intros a b N. rewrite OW, (P4 a b N). edge; reflexivity.
Qed.
Lemma step_place s e q : placed s q -> placed (mstep s e) q.
Proof.
  intros P. destruct e as [e|K g n|K a n opt data|K a ts data|x y]; cbn [Mail.mstep].
  - exact P.
  - unfold registerEnd. destruct (_ && _); [|exact P]. set (h := (g, _)). set (s1 := set_p_own _ s). destruct P as [[P1 P2]|(P1 & P2 & x & y & P3 & P4)].
    + left. split; [|exact P2]. intros a b. unfold onWay. rewrite putOn_links, mailsIn_app, filter_app, app_length. replace (length _ + _)%nat with (onWay s q a b + 0)%nat; [rewrite P1; reflexivity|]. f_equal. edge; reflexivity.
    + right. split; [exact P1|]. split; [exact P2|]. assert (E : forall a b, onWay (putOn K K [Reg n h] s1) q a b = onWay s q a b).
      { intros a b. unfold onWay. rewrite putOn_links, mailsIn_app, filter_app, app_length. change (p_links s1 a b) with (p_links s a b). edge; cbn; lia. }
      exists x, y. split; [rewrite E; exact P3|]. intros a b N. rewrite E. apply P4, N.
  - unfold sendName. destruct (localFed _ _); [|exact P]. change (S (p_count s)) with (1 + p_count s)%nat. apply (sends_place K s [mkMsg (p_count s) a n None opt data] 1); [|exact P].
    intros q'. cbn [filter k_seq]. destruct (Nat.eqb_spec (p_count s) q') as [<-|N]; cbn [length].
    + rewrite Nat.leb_refl. destruct (Nat.ltb_spec (p_count s) (1 + p_count s)); [reflexivity|lia].
    + destruct (Nat.leb_spec (p_count s) q'), (Nat.ltb_spec q' (1 + p_count s)); try reflexivity. lia.
  - unfold sendTargets. destruct (localFed _ _); [|exact P]. apply sends_place; [|exact P]. intros q'. apply copies_count.
  - destruct (p_links s x y) as [|e r] eqn:L; [rewrite attend_none by exact L; exact P|]. rewrite (attend_some _ _ _ _ _ L). set (s1 := popped x y r s).
    assert (W1 : forall a b, (onWay s1 q a b + if Nat.eqb a x && Nat.eqb b y then length (filter (fun m => Nat.eqb (k_seq m) q) (mailsIn [e])) else 0)%nat = onWay s q a b).
    { intros a b. unfold onWay, s1, popped. cbn [p_links set_p_links]. destruct (Nat.eqb a x && Nat.eqb b y) eqn:E; [|lia]. apply edge_eqb in E. injection E as -> ->. rewrite L. change (e :: r) with ([e] ++ r). rewrite mailsIn_app, filter_app, app_length. lia. }
    assert (E1 : ended s1 q = ended s q) by reflexivity. assert (C1 : p_count s1 = p_count s) by reflexivity. destruct e as [n h|m].
    + cbn [mailsIn flat_map app filter length] in W1. assert (OW : forall a b, onWay (does T y (Reg n h) s1) q a b = onWay s q a b /\ ended (does T y (Reg n h) s1) q = ended s q /\ p_count (does T y (Reg n h) s1) = p_count s).
      { intros a b. rewrite <- W1. destruct (does_reg y n h s1) as [->|[->|(z & _ & ->)]].
        - split; [edge; lia|auto].
        - split; [change (onWay (learn y n h s1) q a b) with (onWay s1 q a b); edge; lia|auto].
        - split; [|auto]. unfold onWay. rewrite putOn_links, mailsIn_app, filter_app, app_length. change (p_links (learn y n h s1) a b) with (p_links s1 a b). destruct (Nat.eqb a y && Nat.eqb b z); cbn [mailsIn flat_map app filter length]; edge; lia. }
      destruct (OW 0%nat 0%nat) as (_ & Q1 & Q2). destruct P as [[P1 P2]|(P1 & P2 & u & v & P3 & P4)].
      * left. rewrite Q1, Q2. split; [|exact P2]. intros a b. rewrite (proj1 (OW a b)). apply P1.
      * right. rewrite Q1, Q2. split; [exact P1|]. split; [exact P2|]. exists u, v. rewrite (proj1 (OW u v)). split; [exact P3|]. intros a b N. rewrite (proj1 (OW a b)). apply P4, N.
    + cbn [mailsIn flat_map app filter] in W1. pose proof (does_mail y m s1) as D. cbv zeta in D. set (s' := does T y (Mail m) s1) in *. clearbody s'.
      assert (ON : (exists m' z, k_seq m' = k_seq m /\ s' = putOn y z [Mail m'] s1) \/ exists o, comesTo m o s1 s').
      { destruct D as [[(z & ->)|(h & (z & ->) & _)]|(o & C & _)]; [left; exists m, z; auto|left; exists (setDest h m), z; auto|right; exists o; exact C]. }
      clear D. destruct (Nat.eqb_spec (k_seq m) q) as [EQ|NQ].
      2:{ cbn [length] in W1. assert (OW : (forall a b, onWay s' q a b = onWay s q a b) /\ ended s' q = ended s q /\ p_count s' = p_count s).
          { destruct ON as [(m' & z & SQ & ->)|(o & C1' & C2 & C3 & _)].
            - split; [|auto]. intros a b. rewrite <- W1. unfold onWay. rewrite putOn_links, mailsIn_app, filter_app, app_length. destruct (Nat.eqb a y && Nat.eqb b z); cbn [mailsIn flat_map app filter length]; [rewrite SQ; destruct (Nat.eqb_spec (k_seq m) q); [contradiction|]|]; cbn [length]; edge; lia.
            - split; [|split; [|congruence]].
              + intros a b. rewrite <- W1. unfold onWay. rewrite C1'. edge; lia.
              + unfold ended. rewrite C2, filter_app, app_length. cbn [filter fst]. destruct (Nat.eqb_spec (k_seq m) q); [contradiction|]. cbn [length]. rewrite Nat.add_0_r. reflexivity. }
          destruct OW as (O1 & O2 & O3). destruct P as [[P1 P2]|(P1 & P2 & u & v & P3 & P4)].
          - left. rewrite O2, O3. split; [|exact P2]. intros a b. rewrite O1. apply P1.
          - right. rewrite O2, O3. split; [exact P1|]. split; [exact P2|]. exists u, v. split; [rewrite O1; exact P3|]. intros a b N. rewrite O1. apply P4, N. }
      cbn [length] in W1. destruct P as [[P1 P2]|(P1 & P2 & u & v & P3 & P4)]; [specialize (W1 x y); rewrite P1, !Nat.eqb_refl in W1; cbn [andb] in W1; lia|].
      assert (UV : (u, v) = (x, y)). { destruct (edge_dec (x, y) (u, v)) as [E|N]; [congruence|]. specialize (W1 x y). rewrite (P4 x y N), !Nat.eqb_refl in W1. cbn [andb] in W1. lia. } injection UV as -> ->.
      assert (Z1 : forall a b, onWay s1 q a b = 0%nat). { intros a b. specialize (W1 a b). destruct (edge_dec (a, b) (x, y)) as [E|N]; [injection E as -> ->; rewrite !Nat.eqb_refl, P3 in W1; cbn [andb] in W1; lia|]. rewrite (P4 a b N) in W1. lia. }
      destruct ON as [(m' & z & SQ & ->)|(o & C1' & C2 & C3 & _)].
      * right. split; [exact P1|]. split; [exact P2|]. exists y, z.
        assert (OW : forall a b, onWay (putOn y z [Mail m'] s1) q a b = if Nat.eqb a y && Nat.eqb b z then 1%nat else 0%nat).
        { intros a b. unfold onWay. rewrite putOn_links, mailsIn_app, filter_app, app_length. fold (onWay s1 q a b). rewrite Z1. edge; [|reflexivity]. cbn [mailsIn flat_map app filter]. rewrite SQ, EQ, Nat.eqb_refl. reflexivity. }
        split; [rewrite OW, !Nat.eqb_refl; reflexivity|]. intros a b N. rewrite OW, (edge_neq _ _ _ _ N). reflexivity.
      * left. split; [intros a b; unfold onWay; rewrite C1'; apply Z1|]. unfold ended. rewrite C2, C3, filter_app, app_length. fold (ended s1 q). rewrite E1, P2, C1. cbn [filter fst]. rewrite EQ, Nat.eqb_refl. destruct (Nat.ltb_spec q (p_count s)); [reflexivity|lia].
Qed.
(** every message that was sent is at every moment in exactly one place: on one connection, or at its end; and nothing
    else is under way *)
Theorem C50_message_in_one_place es q : let s := mrun es in
  ((q < p_count s)%nat /\ (exists x y, onWay s q x y = 1%nat /\ forall a b, (a, b) <> (x, y) -> onWay s q a b = 0%nat) /\ ended s q = 0%nat)
  \/ ((q < p_count s)%nat /\ (forall x y, onWay s q x y = 0%nat) /\ ended s q = 1%nat)
  \/ ((p_count s <= q)%nat /\ (forall x y, onWay s q x y = 0%nat) /\ ended s q = 0%nat).
Proof.
  cbv zeta. assert (P : placed (mrun es) q).
  { induction es as [|e es IH] using rev_ind; [left; split; reflexivity|]. rewrite mrun_snoc. apply step_place, IH. }
  destruct P as [[P1 P2]|(P1 & P2 & P3)]; [|left; auto]. destruct (Nat.ltb_spec q (p_count (mrun es))); [right; left; auto|right; right; auto].
Qed.
(** the numbers are those of the messages sent *)
Theorem C50_messages_are_numbered es : map k_seq (mails es) = seq 0 (p_count (mrun es)).
Proof.
  assert (CO : forall c a data ts, map k_seq (copies c a data ts) = seq c (length ts)) by (intros c a data ts; revert c; induction ts as [|t ts IH]; intros c; [reflexivity|]; cbn; rewrite IH; reflexivity).
  induction es as [|e es IH] using rev_ind; [reflexivity|]. rewrite mails_snoc, mrun_snoc, map_app, IH. set (s := mrun es). destruct e as [e|K g n|K a n opt data|K a ts data|x y]; cbn [mailsOf Mail.mstep map]; rewrite ?app_nil_r; try reflexivity.
  - unfold registerEnd. destruct (_ && _); reflexivity.
  - unfold sendName. destruct (localFed _ _); cbn [map]; [|rewrite app_nil_r; reflexivity]. cbn [p_count putOn set_p_links set_p_count k_seq]. rewrite seq_S. reflexivity.
  - unfold sendTargets. destruct (localFed _ _); cbn [map]; [|rewrite app_nil_r; reflexivity]. rewrite <- copies_toTargets. cbn [p_count putOn set_p_links set_p_count]. rewrite CO, (Nat.add_comm (length ts)), seq_app. reflexivity.
  - destruct (p_links s x y) as [|e r] eqn:L; [rewrite attend_none by exact L; reflexivity|]. rewrite (attend_some _ _ _ _ _ L). destruct e as [n h|m].
    + destruct (does_reg y n h (popped x y r s)) as [->|[->|(z & _ & ->)]]; reflexivity.
    + destruct (does_mail y m (popped x y r s)) as [[(z & ->)|(h & (z & ->) & _)]|(o & (_ & _ & -> & _) & _)]; reflexivity.
Qed.

(** ** where names and messages come from *)
Definition sameMail (m0 m : msg) : Prop := k_seq m = k_seq m0 /\ k_src m = k_src m0 /\ k_name m = k_name m0 /\ k_data m = k_data m0.
Definition ownedIn (s : msys) (n : string) (h : Z * Z) : Prop := exists K, In (n, h) (p_own s K).
Definition addressed (s : msys) (m0 m : msg) : Prop :=
  k_dest m = k_dest m0 \/ k_dest m0 = None /\ exists h, k_dest m = Some h /\ ownedIn s (k_name m0) h.
Record traced (es : list mevent) (s : msys) : Prop := {
  o_names : forall x n h, In (n, h) (p_names s x) -> exists K, In (n, h) (p_own s K) /\ below T x K;
  o_links : forall x y n h, In (Reg n h) (p_links s x y) -> exists K, In (n, h) (p_own s K) /\ below T y K;
  o_mail : forall x y m, In (Mail m) (p_links s x y) -> exists m0, In m0 (mails es) /\ sameMail m0 m /\ addressed s m0 m;
  o_box : forall g m, In m (p_box s g) -> exists m0 h, In m0 (mails es) /\ sameMail m0 m /\ addressed s m0 m /\ k_dest m = Some h /\ fst h = g
}.
Lemma lookup_in l n h : lookupName l n = Some h -> In (n, h) l.
Proof. unfold lookupName. destruct (find _ l) as [[n' h']|] eqn:F; [|discriminate]. cbn. intros E. injection E as ->. apply find_some in F as [I E]. cbn in E. apply String.eqb_eq in E. subst n'. exact I. Qed.
Lemma sameMail_refl m : sameMail m m. Proof. repeat split. Qed.
Lemma own_grows s e K n h : In (n, h) (p_own s K) -> In (n, h) (p_own (mstep s e) K).
Proof.
  intros I. destruct e as [e|K' g n'|K' a n' opt data|K' a ts data|x y]; cbn [Mail.mstep]; try exact I.
  - unfold registerEnd. destruct (_ && _); [|exact I]. cbn [p_own putOn set_p_links set_p_own]. destruct (Nat.eqb K K'); [apply in_or_app; auto|exact I].
  - unfold sendName. destruct (localFed _ _); exact I.
  - unfold sendTargets. destruct (localFed _ _); exact I.
  - destruct (p_links s x y) as [|e r] eqn:L; [rewrite attend_none by exact L; exact I|]. rewrite (attend_some _ _ _ _ _ L). destruct e as [n' h'|m].
    + destruct (does_reg y n' h' (popped x y r s)) as [->|[->|(z & _ & ->)]]; exact I.
    + destruct (does_mail y m (popped x y r s)) as [[(z & ->)|(h' & (z & ->) & _)]|(o & (_ & _ & _ & _ & -> & _) & _)]; exact I.
Qed.
Lemma addressed_grows s e m0 m : addressed s m0 m -> addressed (mstep s e) m0 m.
Proof. intros [H|(H & h & D & K & I)]; [left; exact H|right]. split; [exact H|]. exists h. split; [exact D|]. exists K. apply own_grows, I. Qed.
Lemma traced_step es e s : traced es s -> s = mrun es -> traced (es ++ [e]) (mstep s e).
Proof.
  intros [N L M B] ES.
  assert (G : forall m0, In m0 (mails es) -> In m0 (mails (es ++ [e]))) by (intros m0 I; rewrite mails_snoc; apply in_or_app; auto).
  assert (GK : forall n h z, (exists K, In (n, h) (p_own s K) /\ below T z K) -> exists K, In (n, h) (p_own (mstep s e) K) /\ below T z K) by (intros n h z (K & I & W); exists K; split; [apply own_grows, I|exact W]).
  assert (GM : forall m, (exists m0, In m0 (mails es) /\ sameMail m0 m /\ addressed s m0 m) -> exists m0, In m0 (mails (es ++ [e])) /\ sameMail m0 m /\ addressed (mstep s e) m0 m) by (intros m (m0 & I1 & I2 & I3); exists m0; auto using addressed_grows).
  assert (GB : forall g m, (exists m0 h, In m0 (mails es) /\ sameMail m0 m /\ addressed s m0 m /\ k_dest m = Some h /\ fst h = g) -> exists m0 h, In m0 (mails (es ++ [e])) /\ sameMail m0 m /\ addressed (mstep s e) m0 m /\ k_dest m = Some h /\ fst h = g) by (intros g m (m0 & h & I1 & I2 & I3 & I4); exists m0, h; auto using addressed_grows).
  destruct e as [e|K g n|K a n opt data|K a ts data|x y].
  - constructor; [intros x n h I; apply GK, (N x n h I)|intros x y n h I; apply GK, (L x y n h I)|intros x y m I; apply GM, (M x y m I)|intros g m I; apply GB, (B g m I)].
  - assert (C : mstep s (P_register K g n) = s \/ let h := (g, Z.of_nat (length (p_own s K))) in mstep s (P_register K g n) = putOn K K [Reg n h] (set_p_own (fun a => if Nat.eqb a K then p_own s a ++ [(n, h)] else p_own s a) s)) by (cbn [Mail.mstep]; unfold registerEnd; destruct (_ && _); auto).
    destruct C as [C|C]; cbv zeta in C; rewrite C in *.
    + constructor; [intros x n' h I; apply (N x n' h I)|intros x y n' h I; apply (L x y n' h I)|intros x y m I; apply GM, (M x y m I)|intros g' m I; apply GB, (B g' m I)].
    + set (h := (g, Z.of_nat (length (p_own s K)))) in *. constructor.
      * intros x n' h' I. apply GK, (N x n' h' I).
      * intros x y n' h' I. rewrite putOn_links in I. apply in_app_or in I as [I|I]; [apply GK, (L x y n' h' I)|]. destruct (Nat.eqb x K && Nat.eqb y K) eqn:E; [|destruct I]. apply edge_eqb in E. injection E as -> ->.
        destruct I as [I|[]]. injection I as <- <-. exists K. split; [|constructor]. cbn [p_own putOn set_p_links set_p_own]. rewrite Nat.eqb_refl. apply in_or_app. right. left. reflexivity.
      * intros x y m I. rewrite putOn_links in I. apply in_app_or in I as [I|I]; [apply GM, (M x y m I)|]. destruct (_ && _); [|destruct I]. destruct I as [I|[]]. discriminate.
      * intros g' m I. apply GB, (B g' m I).
  - cbn [Mail.mstep] in *. unfold sendName in *. assert (MO : mailsOf s (P_send K a n opt data) = if localFed (nodes (p_net s) K) (fst a) then [mkMsg (p_count s) a n None opt data] else []) by reflexivity. destruct (localFed _ _) eqn:LF.
    + constructor; [intros x n' h I; apply GK, (N x n' h I)| | |intros g m I; apply GB, (B g m I)].
      * intros x y n' h' I. rewrite putOn_links in I. apply in_app_or in I as [I|I]; [apply GK, (L x y n' h' I)|]. destruct (_ && _); [|destruct I]. destruct I as [I|[]]. discriminate.
      * intros x y m I. rewrite putOn_links in I. apply in_app_or in I as [I|I]; [apply GM, (M x y m I)|]. destruct (_ && _); [|destruct I]. destruct I as [I|[]]. injection I as <-.
        eexists. split; [rewrite mails_snoc, <- ES, MO; apply in_or_app; right; left; reflexivity|]. split; [apply sameMail_refl|left; reflexivity].
    + constructor; [intros x n' h I; apply (N x n' h I)|intros x y n' h I; apply (L x y n' h I)|intros x y m I; apply GM, (M x y m I)|intros g' m I; apply GB, (B g' m I)].
  - cbn [Mail.mstep] in *. unfold sendTargets in *. assert (MO : mailsOf s (P_targets K a ts data) = if localFed (nodes (p_net s) K) (fst a) then copies (p_count s) a data ts else []) by (rewrite copies_toTargets; reflexivity). destruct (localFed _ _) eqn:LF.
    + constructor; [intros x n' h I; apply GK, (N x n' h I)| | |intros g m I; apply GB, (B g m I)].
      * intros x y n' h' I. rewrite putOn_links in I. apply in_app_or in I as [I|I]; [apply GK, (L x y n' h' I)|]. destruct (_ && _); [|destruct I]. apply in_map_iff in I as (m & Q & _). discriminate.
      * intros x y m I. rewrite putOn_links in I. apply in_app_or in I as [I|I]; [apply GM, (M x y m I)|]. destruct (_ && _); [|destruct I]. apply in_map_iff in I as (m' & Q & I). injection Q as ->.
        exists m. split; [rewrite mails_snoc, <- ES, MO; apply in_or_app; right; exact I|]. split; [apply sameMail_refl|left; reflexivity].
    + constructor; [intros x n' h I; apply (N x n' h I)|intros x y n' h I; apply (L x y n' h I)|intros x y m I; apply GM, (M x y m I)|intros g' m I; apply GB, (B g' m I)].
  - cbn [Mail.mstep] in *. destruct (p_links s x y) as [|e r] eqn:LK.
    + rewrite attend_none in * by exact LK. constructor; [intros x' n' h I; apply (N x' n' h I)|intros x' y' n' h I; apply (L x' y' n' h I)|intros x' y' m I; apply GM, (M x' y' m I)|intros g' m I; apply GB, (B g' m I)].
    + rewrite (attend_some _ _ _ _ _ LK) in *. set (s1 := popped x y r s) in *.
      assert (LI : forall a b e', In e' (p_links s1 a b) -> In e' (p_links s a b)). { intros a b e'. unfold s1, popped. cbn [p_links set_p_links]. destruct (Nat.eqb a x && Nat.eqb b y) eqn:E; [|auto]. apply edge_eqb in E. injection E as -> ->. rewrite LK. intros I. right. exact I. }
      assert (HD : In e (p_links s x y)) by (rewrite LK; left; reflexivity).
      destruct e as [n h|m].
      * destruct (L x y n h HD) as (K & OK & BL).
        assert (NL : forall x' n' h', In (n', h') (p_names (learn y n h s1) x') -> exists K, In (n', h') (p_own s K) /\ below T x' K).
        { intros x' n' h' I. cbn [p_names learn set_p_names] in I. destruct (Nat.eqb_spec x' y) as [->|Q]; [|apply (N x' n' h' I)]. apply in_app_or in I as [I|[I|[]]]; [apply (N y n' h' I)|]. injection I as <- <-. eauto. }
        destruct (does_reg y n h s1) as [E|[E|(z & PZ & E)]]; rewrite E in *.
        -- constructor; [intros x' n' h' I; apply (N x' n' h' I)|intros x' y' n' h' I; apply (L x' y' n' h'), (LI _ _ _ I)|intros x' y' m I; apply GM, (M x' y' m), (LI _ _ _ I)|intros g' m I; apply GB, (B g' m I)].
        -- constructor; [intros x' n' h' I; apply (NL x' n' h' I)|intros x' y' n' h' I; apply (L x' y' n' h'), (LI _ _ _ I)|intros x' y' m I; apply GM, (M x' y' m), (LI _ _ _ I)|intros g' m I; apply GB, (B g' m I)].
        -- constructor; [intros x' n' h' I; apply (NL x' n' h' I)| | |intros g' m I; apply GB, (B g' m I)].
           ++ intros x' y' n' h' I. rewrite putOn_links in I. apply in_app_or in I as [I|I]; [apply (L x' y' n' h'), (LI _ _ _ I)|]. destruct (Nat.eqb x' y && Nat.eqb y' z) eqn:Q; [|destruct I]. apply edge_eqb in Q. injection Q as -> ->. destruct I as [I|[]]. injection I as <- <-.
              exists K. split; [exact OK|]. clear -BL PZ. apply (below_trans T z y K); [apply (below_up T z y z PZ); constructor|exact BL].
           ++ intros x' y' m I. rewrite putOn_links in I. apply in_app_or in I as [I|I]; [apply GM, (M x' y' m), (LI _ _ _ I)|]. destruct (_ && _); [|destruct I]. destruct I as [I|[]]. discriminate.
      * destruct (M x y m HD) as (m0 & I0 & S0 & A0). pose proof (does_mail y m s1) as D. cbv zeta in D. set (s' := does T y (Mail m) s1) in *. clearbody s'.
        assert (OA : forall h, k_dest m = None -> lookupName (p_names s1 y) (k_name m) = Some h -> addressed s m0 (setDest h m)).
        { intros h DN LN. right. apply lookup_in in LN. change (p_names s1 y) with (p_names s y) in LN. destruct (N y _ _ LN) as (K & OK & _). destruct A0 as [A0|(_ & h' & A0 & _)]; [|congruence]. split; [congruence|]. exists h. split; [reflexivity|]. exists K. destruct S0 as (_ & _ & S0 & _). rewrite <- S0. exact OK. }
        assert (SD : forall h, sameMail m0 (setDest h m)) by (intros h; exact S0).
        destruct D as [D|(o & (C1 & C2 & C3 & C4 & C5 & C6 & C7) & OC)].
        -- assert (E : exists m' z, s' = putOn y z [Mail m'] s1 /\ sameMail m0 m' /\ addressed s m0 m') by (destruct D as [(z & E)|(h & (z & E) & DN & LN)]; [exists m, z; auto|exists (setDest h m), z; auto]). destruct E as (m' & z & -> & S' & A').
           constructor; [intros x' n' h' I; apply (N x' n' h' I)| | |intros g' m1 I; apply GB, (B g' m1 I)].
           ++ intros x' y' n' h' I. rewrite putOn_links in I. apply in_app_or in I as [I|I]; [apply (L x' y' n' h'), (LI _ _ _ I)|]. destruct (_ && _); [|destruct I]. destruct I as [I|[]]. discriminate.
           ++ intros x' y' m1 I. rewrite putOn_links in I. apply in_app_or in I as [I|I]; [apply GM, (M x' y' m1), (LI _ _ _ I)|]. destruct (_ && _); [|destruct I]. destruct I as [I|[]]. injection I as <-. apply GM. exists m0. auto.
        -- constructor; [intros x' n' h' I; rewrite C4 in I; rewrite C5; apply (N x' n' h' I)|intros x' y' n' h' I; rewrite C1 in I; rewrite C5; apply (L x' y' n' h'), (LI _ _ _ I)|intros x' y' m1 I; rewrite C1 in I; apply GM, (M x' y' m1), (LI _ _ _ I)|].
           intros g' m1 I. apply GB. destruct o as [h| |]; [|rewrite C7 in I; apply (B g' m1 I)|rewrite C7 in I; apply (B g' m1 I)]. rewrite C7 in I. destruct (Z.eqb_spec g' (fst h)) as [->|Q]; [|apply (B g' m1 I)].
           apply in_app_or in I as [I|[<-|[]]]; [apply (B _ m1 I)|]. exists m0, h. split; [exact I0|]. split; [apply SD|]. split; [|auto]. destruct (k_dest m) as [h1|] eqn:DM; [|apply OA; auto]. subst h1. destruct A0 as [A0|(A1 & h2 & A2 & A3)]; [left; cbn; congruence|right]. split; [exact A1|]. exists h. split; [reflexivity|]. replace h with h2 by congruence. exact A3.
Qed.
Lemma traced_run es : traced es (mrun es).
Proof.
  induction es as [|e es IH] using rev_ind; [constructor; [intros x n h []|intros x y n h []|intros x y m []|intros g m []]|]. rewrite mrun_snoc. apply traced_step; auto.
Qed.
(** whatever a federate is handed was sent, with the same source, name and data, to one of its endpoints: to the endpoint
    itself, or to the name under which the endpoint was registered *)
Theorem C50_right_receiver es g m : In m (p_box (mrun es) g) -> exists m0 h, In m0 (mails es) /\ k_seq m = k_seq m0 /\ k_src m = k_src m0 /\ k_name m = k_name m0 /\ k_data m = k_data m0
  /\ k_dest m = Some h /\ fst h = g /\ (k_dest m0 = Some h \/ k_dest m0 = None /\ exists K, In (k_name m0, h) (p_own (mrun es) K)).
Proof.
  intros I. destruct (o_box _ _ (traced_run es) g m I) as (m0 & h & I0 & (S1 & S2 & S3 & S4) & A & D & F). exists m0, h. repeat (split; [assumption|]). destruct A as [A|(A1 & h' & A2 & A3)]; [left; congruence|right]. split; [exact A1|]. replace h with h' by congruence. exact A3.
Qed.
End Props.
