(** C35: filters transform exactly as configured. *)
From Coq Require Import ZArith List Lia Bool.
From Verif Require Import HTime Action MsgConv Interfaces Ids Handles Filters PropsInput HandlesAlias.
Import ListNotations.
Local Open Scope Z_scope.

(** ** Specification: two messages that agree in everything except what is named *)
Definition sameBut (time dest odest flags : bool) (a b : message) : Prop :=
  (time = false -> g_time a = g_time b) /\ (dest = false -> g_dest a = g_dest b) /\ (odest = false -> g_origDest a = g_origDest b) /\ (flags = false -> g_flags a = g_flags b) /\
  g_id a = g_id b /\ g_data a = g_data b /\ g_source a = g_source b /\ g_origSource a = g_origSource b.

(** ** Delay *)
(** the delay last set: [set] ignores negative values, a text is taken as it is *)
Definition accepted (c : delayCall) : list Z := match c with DSet v => if v <? 0 then [] else [v] | DSetString (Some v) => [v] | DSetString None => [] end.
Lemma delay_last d cs : delayAfter d cs = last (Z.max 0 d :: flat_map accepted cs) 0.
Proof.
  unfold delayAfter. replace (delayInit d) with (Z.max 0 d) by (unfold delayInit; destruct (Z.ltb_spec d 0); lia).
  generalize (Z.max 0 d). induction cs as [|c cs IH]; intros e; [reflexivity|]. cbn [fold_left flat_map]. rewrite IH.
  assert (L : forall x y l, last (x :: y :: l) 0 = last (y :: l) 0) by reflexivity.
  destruct c as [v|[v|]]; cbn [delayStep accepted].
  - rewrite Z.leb_antisym. destruct (v <? 0); reflexivity.
  - reflexivity.
  - reflexivity.
Qed.
Theorem C35_delay d cs g : exists g', op_process (delayOp (delayAfter d cs)) g = Some g' /\
  g_time g' = g_time g + last (Z.max 0 d :: flat_map accepted cs) 0 /\ sameBut true false false false g' g.
Proof. eexists. split; [reflexivity|]. rewrite delay_last. split; [reflexivity|]. repeat split; auto; discriminate. Qed.
(** with values set as numbers the delay is never negative *)
Theorem C35_delay_not_negative d cs : (forall v, ~ In (DSetString (Some v)) cs) -> 0 <= delayAfter d cs.
Proof.
  intros H. unfold delayAfter. assert (I : 0 <= delayInit d) by (unfold delayInit; destruct (Z.ltb_spec d 0); lia). revert I. generalize (delayInit d).
  induction cs as [|c cs IH]; intros e I; [exact I|]. cbn. apply IH; [intros v Q; apply (H v); now right|].
  destruct c as [v|[v|]]; cbn; auto.
  - destruct (Z.leb_spec 0 v); auto.
  - exfalso. apply (H v). now left.
Qed.
(** set as a text it can be: the message is moved into the past *)
Theorem C35_negative_delay_text_refuted : exists cs g g', op_process (delayOp (delayAfter 0 cs)) g = Some g' /\ g_time g' < g_time g.
Proof. exists [DSetString (Some (-5))], (mkMessage 10 0 1 [] [97] [98] [98] []). eexists. split; [reflexivity|]. cbn. lia. Qed.
(** ** Random delay and drop *)
Theorem C35_random_delay gen g : exists g', op_process (randomDelayOp gen) g = Some g' /\ g_time g' = g_time g + gen /\ sameBut true false false false g' g.
Proof. eexists. split; [reflexivity|]. repeat split; auto; discriminate. Qed.
Theorem C35_random_drop keep g : op_process (randomDropOp keep) g = Some g \/ op_process (randomDropOp keep) g = None.
Proof. destruct keep; auto. Qed.

(** ** Clone: one copy per configured address, addressed to it, remembering the message's destination; nothing else changed *)
Definition wanted (a : list Z) (b : bool) (c : cloneCall) : bool :=
  match c with Delivery v => beq a v | AddDelivery v => b || beq a v | RemoveDelivery v => b && negb (beq a v) end.
Lemma existsb_beq v l : existsb (beq v) l = true <-> In v l.
Proof. rewrite existsb_exists. split; [intros (x & I & E); apply beq_eq in E; now subst|intros I; exists v; split; [assumption|now apply beq_eq]]. Qed.
Lemma eraseFirst_in v l a : NoDup l -> (In a (eraseFirst v l) <-> In a l /\ a <> v).
Proof.
  induction l as [|x l IH]; intros N; cbn; [tauto|]. inversion N; subst. specialize (IH H2).
  destruct (beq x v) eqn:E.
  - apply beq_eq in E. subst. split; [intros I; split; [now right|intros ->; contradiction]|intros [[->|I] Q]; [congruence|assumption]].
  - cbn. rewrite IH. split; [intros [->|[I Q]]; split; auto; intros ->; rewrite (proj2 (beq_eq _ _) eq_refl) in E; discriminate|tauto].
Qed.
Lemma eraseFirst_nodup v l : NoDup l -> NoDup (eraseFirst v l).
Proof.
  induction l as [|x l IH]; intros N; cbn; [constructor|]. inversion N; subst. destruct (beq x v); [assumption|].
  constructor; [|auto]. rewrite eraseFirst_in by assumption. tauto.
Qed.
Lemma clone_addrs cs : NoDup (cloneAfter cs) /\ forall a, In a (cloneAfter cs) <-> fold_left (wanted a) cs false = true.
Proof.
  induction cs as [|c cs [N I]] using rev_ind; [split; [constructor|cbn; intros; split; [tauto|discriminate]]|].
  unfold cloneAfter in *. rewrite fold_left_app. cbn [fold_left]. set (l := fold_left cloneStep cs []) in *. clearbody l.
  split.
  - destruct c as [v|v|v]; cbn; [repeat constructor; tauto| |now apply eraseFirst_nodup].
    destruct (existsb (beq v) l) eqn:E; [assumption|].
    rewrite <- (rev_involutive (l ++ [v])). apply NoDup_rev. rewrite rev_app_distr. cbn. constructor; [|now apply NoDup_rev].
    rewrite <- in_rev. intros Q. apply existsb_beq in Q. congruence.
  - intros a. rewrite fold_left_app. cbn [fold_left]. specialize (I a). destruct c as [v|v|v]; cbn [cloneStep wanted].
    + cbn. rewrite beq_eq. intuition congruence.
    + rewrite orb_true_iff, <- I, beq_eq. destruct (existsb (beq v) l) eqn:E.
      * apply existsb_beq in E. intuition congruence.
      * rewrite in_app_iff. cbn. intuition congruence.
    + rewrite eraseFirst_in by assumption. rewrite andb_true_iff, <- I, negb_true_iff. destruct (beq a v) eqn:E.
      * apply beq_eq in E. intuition congruence.
      * split; [tauto|]. intros [Q _]. split; [assumption|]. intros ->. rewrite (proj2 (beq_eq _ _) eq_refl) in E. discriminate.
Qed.
Theorem C35_clone cs g : let out := op_vector (cloneOp (cloneAfter cs)) g in
  NoDup (map g_dest out) /\
  (forall a, In a (map g_dest out) <-> fold_left (wanted a) cs false = true) /\
  (forall g', In g' out -> g_origDest g' = g_dest g /\ sameBut false true true false g' g).
Proof.
  cbn zeta. unfold cloneOp, cloneVector, cloneSend. cbn [op_vector]. rewrite map_map. cbn [g_dest withDest withOrigDest]. rewrite map_id.
  destruct (clone_addrs cs) as [N I]. split; [assumption|]. split; [assumption|]. intros g' H. apply in_map_iff in H. destruct H as (a & <- & _). cbn. repeat split; auto; discriminate.
Qed.
(** ** Firewall operator: passes or blocks, or sets one flag, as configured *)
Theorem C35_firewall_operator op check g :
  firewallProcess op (Some check) g =
  match op with
  | FwDrop => if check g then None else Some g
  | FwPass => if check g then Some g else None
  | FwNone => Some g
  | FwFlag1 | FwFlag2 | FwFlag3 => Some (if check g then withFlags (setActionFlag (g_flags g) (match op with FwFlag1 => 10 | FwFlag2 => 13 | _ => 14 end)) g else g)
  end.
Proof. destruct op; cbn; destruct (check g); reflexivity. Qed.
(** The firewall filter as delivered: its check accepts every message and the operation is "drop what the check accepts", so nothing passes. *)
Theorem C35_firewall_filter_drops_everything_refuted : forall g, op_process firewallOp g = None.
Proof. reflexivity. Qed.

(** ** Reroute *)
Section RerouteSpec.
Variable search : list Z -> list Z -> bool.
Variable expand : list Z -> list Z.
(** a replacement text without '$' stands for itself (std::regex_replace, ECMAScript format) *)
Hypothesis expand_plain : forall s, ~ In 36 s -> expand s = s.
(** a formula as a user writes it: texts without '$', the message's source, the message's destination *)
Inductive piece := Text (s : list Z) | TheSource | TheDest.
Definition written (p : piece) : list Z := match p with Text s => s | TheSource => [36; 123; 115; 111; 117; 114; 99; 101; 125] | TheDest => [36; 123; 100; 101; 115; 116; 125] end.
Definition means (src dest : list Z) (p : piece) : list Z := match p with Text s => s | TheSource => src | TheDest => dest end.
Definition textOk (p : piece) : Prop := match p with Text s => ~ In 36 s | _ => True end.
Lemma replace_plain p rep l s : ~ In 36 l -> replaceAll (36 :: p) rep 0 (l ++ s) = l ++ replaceAll (36 :: p) rep 0 s.
Proof.
  induction l as [|c l IH]; intros N; [reflexivity|]. cbn [app]. cbn [replaceAll isPrefix].
  destruct (Z.eqb_spec 36 c) as [E|E]; [exfalso; apply N; left; congruence|]. cbn [andb]. f_equal. apply IH. intros Q. apply N. now right.
Qed.
Lemma replace_src rep s : replaceAll srcPat rep 0 (srcPat ++ s) = rep ++ replaceAll srcPat rep 0 s.
Proof. reflexivity. Qed.
Lemma replace_dst rep s : replaceAll dstPat rep 0 (dstPat ++ s) = rep ++ replaceAll dstPat rep 0 s.
Proof. reflexivity. Qed.
Lemma replace_src_dst rep s : replaceAll srcPat rep 0 (dstPat ++ s) = dstPat ++ replaceAll srcPat rep 0 s.
Proof. reflexivity. Qed.
Lemma no_dollar s : existsb (Z.eqb dollar) s = false -> ~ In 36 s.
Proof. intros E Q. assert (X : existsb (Z.eqb dollar) s = true) by (apply existsb_exists; exists 36; split; [exact Q|reflexivity]). congruence. Qed.
Theorem C35_reroute_formula src dest ps : ~ In 36 src -> ~ In 36 dest -> Forall textOk ps ->
  newDestGeneration expand src dest (concat (map written ps)) = concat (map (means src dest) ps).
Proof.
  intros Ns Nd F. unfold newDestGeneration. destruct (existsb (Z.eqb dollar) (concat (map written ps))) eqn:E; cbn [negb].
  - clear E. rewrite (expand_plain _ Ns), (expand_plain _ Nd).
    replace (replaceAll srcPat src 0 (concat (map written ps))) with (concat (map (fun p => match p with TheSource => src | _ => written p end) ps)).
    + induction F as [|p ps H F IH]; [reflexivity|]. cbn [map concat]. destruct p as [s| |]; cbn [written means].
      * unfold dstPat at 1. rewrite replace_plain by exact H. f_equal. exact IH.
      * unfold dstPat at 1. rewrite replace_plain by exact Ns. f_equal. exact IH.
      * change [36; 123; 100; 101; 115; 116; 125] with dstPat. rewrite replace_dst. f_equal. exact IH.
    + induction F as [|p ps H F IH]; [reflexivity|]. cbn [map concat]. destruct p as [s| |]; cbn [written].
      * unfold srcPat at 1. rewrite replace_plain by exact H. f_equal. exact IH.
      * change [36; 123; 115; 111; 117; 114; 99; 101; 125] with srcPat. rewrite replace_src. f_equal. exact IH.
      * change [36; 123; 100; 101; 115; 116; 125] with dstPat. rewrite replace_src_dst. f_equal. exact IH.
  - apply no_dollar in E. clear F. induction ps as [|p ps IH]; [reflexivity|]. cbn [map concat] in *.
    destruct p as [s| |]; cbn [written means]; [|exfalso; apply E; now left|exfalso; apply E; now left].
    f_equal. apply IH. intros Q. apply E. apply in_or_app. now right.
Qed.
(** the conditions set through the API: a set of patterns; the destination last set *)
Definition rerouteAfter (cs : list rerouteCall) : reroute := fold_left rerouteStep cs (mkReroute [] []).
Definition patternsOf (cs : list rerouteCall) : list (list Z) := flat_map (fun c => match c with Cond v => [v] | _ => [] end) cs.
Definition formulasOf (cs : list rerouteCall) : list (list Z) := flat_map (fun c => match c with NewDest v => [v] | _ => [] end) cs.
Lemma reroute_state cs : r_new (rerouteAfter cs) = last (formulasOf cs) [] /\ forall v, In v (r_conds (rerouteAfter cs)) <-> In v (patternsOf cs).
Proof.
  induction cs as [|c cs [A B]] using rev_ind; [split; [reflexivity|cbn; tauto]|].
  unfold rerouteAfter, formulasOf, patternsOf in *. rewrite fold_left_app, !flat_map_app. cbn [fold_left flat_map]. rewrite !app_nil_r.
  set (r := fold_left rerouteStep cs (mkReroute [] [])) in *. clearbody r. destruct c as [v|v|]; cbn [rerouteStep r_new r_conds app]; rewrite ?app_nil_r.
  - split; [now rewrite last_last|exact B].
  - split; [exact A|]. intros w. rewrite in_app_iff, <- B. cbn [In]. destruct (existsb (beq v) (r_conds r)) eqn:E.
    + apply existsb_beq in E. intuition congruence.
    + rewrite in_app_iff. cbn [In]. tauto.
  - split; assumption.
Qed.
(** The rerouted message: a new destination if there is no condition or one of them is found in the old destination, otherwise the old one; the first
    destination is remembered; nothing else changes. *)
Theorem C35_reroute cs ps g : last (formulasOf cs) [] = concat (map written ps) -> Forall textOk ps -> ~ In 36 (g_source g) -> ~ In 36 (g_dest g) ->
  exists g', op_process (rerouteOp search expand (rerouteAfter cs)) g = Some g' /\ sameBut false true true false g' g /\
    (patternsOf cs = [] \/ (exists v, In v (patternsOf cs) /\ search v (g_dest g) = true) -> g_dest g' = concat (map (means (g_source g) (g_dest g)) ps)) /\
    (patternsOf cs <> [] -> (forall v, In v (patternsOf cs) -> search v (g_dest g) = false) -> g_dest g' = g_dest g) /\
    g_origDest g' = match g_origDest g with [] => g_dest g | o => o end.
Proof.
  intros L F Ns Nd. destruct (reroute_state cs) as [A B]. eexists. split; [reflexivity|].
  set (g1 := match g_origDest g with [] => withOrigDest (g_dest g) g | _ :: _ => g end).
  assert (S1 : g_source g1 = g_source g /\ g_dest g1 = g_dest g /\ sameBut false false true false g1 g) by (unfold g1; destruct (g_origDest g); repeat split; intros; auto; discriminate).
  destruct S1 as (S1 & D1 & SB). split; [|split; [|split]].
  - unfold sameBut in *. cbn. destruct SB as (? & ? & ? & ? & ? & ? & ? & ?). repeat split; auto; discriminate.
  - intros H. cbn [withDest g_dest]. rewrite S1, D1. unfold rerouteOperation. rewrite A, L.
    rewrite <- (C35_reroute_formula (g_source g) (g_dest g) ps Ns Nd F).
    destruct (r_conds (rerouteAfter cs)) as [|c l] eqn:Q; [reflexivity|].
    destruct (existsb (fun c0 => search c0 (g_dest g)) (c :: l)) eqn:X; [reflexivity|exfalso].
    assert (I : In c (patternsOf cs)) by (apply B; now left).
    destruct H as [H|(v & I' & T)]; [rewrite H in I; destruct I|].
    apply B in I'. assert (Y : existsb (fun c0 => search c0 (g_dest g)) (c :: l) = true) by (apply existsb_exists; exists v; split; assumption). congruence.
  - intros H N. cbn [withDest g_dest]. rewrite S1, D1. unfold rerouteOperation.
    destruct (r_conds (rerouteAfter cs)) as [|c l] eqn:Q.
    + exfalso. apply H. destruct (patternsOf cs) as [|x r]; [reflexivity|]. exfalso. apply (proj2 (B x)). now left.
    + destruct (existsb (fun c0 => search c0 (g_dest g)) (c :: l)) eqn:X; [exfalso|reflexivity].
      apply existsb_exists in X. destruct X as (v & I & T). rewrite N in T; [discriminate|]. now apply B.
  - cbn [withDest g_origDest]. unfold g1. destruct (g_origDest g) eqn:O; cbn [withOrigDest g_origDest]; [reflexivity|exact O].
Qed.
End RerouteSpec.
(** A message that no condition matches keeps its destination but is no longer unchanged: its original destination is filled in. *)
Theorem C35_unmatched_is_unchanged_refuted : exists cs g g', let r := rerouteAfter cs in
  patternsOf cs <> [] /\ (forall v, In v (patternsOf cs) -> beq v (g_dest g) = false) /\
  op_process (rerouteOp beq (fun s => s) r) g = Some g' /\ g' <> g.
Proof.
  exists [NewDest [99]; Cond [120]], (mkMessage 10 0 1 [7] [97] [98] [98] []). eexists. cbn zeta. split; [discriminate|].
  split; [intros v [<-|[]]; reflexivity|]. split; [reflexivity|discriminate].
Qed.
(** A source name with "$&" in it is not inserted as it is: the replacement text is itself a template (here its expansion by std::regex_replace). *)
Theorem C35_dollar_in_a_name_refuted : exists expand src dest, (forall s, ~ In 36 s -> expand s = s) /\
  newDestGeneration expand src dest (written TheSource) <> means src dest TheSource.
Proof.
  exists (fun s => if beq s [36; 38] then [36; 123; 115; 111; 117; 114; 99; 101; 125] else s), [36; 38], [97]. split; [|vm_compute; discriminate].
  intros s N. destruct (beq s [36; 38]) eqn:E; [|reflexivity]. apply beq_eq in E. subst. exfalso. apply N. now left.
Qed.
(** Not vacuous: "hub/${source}/${dest}" with a condition that matches. *)
Example C35_reroute_example : exists g', op_process (rerouteOp beq (fun s => s) (rerouteAfter [NewDest (concat (map written [Text [104; 47]; TheSource; Text [47]; TheDest])); Cond [97]]))
    (mkMessage 10 0 1 [7] [97] [98] [98] []) = Some g' /\ g_dest g' = [104; 47; 98; 47; 97] /\ g_origDest g' = [97].
Proof. eexists. split; [vm_compute; reflexivity|]. split; reflexivity. Qed.
