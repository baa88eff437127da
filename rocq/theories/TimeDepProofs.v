(** * Lemmas about the dependency table *)
From Coq Require Import ZArith Bool List Lia ZifyBool Sorted.
From Verif Require Import HTime Action TimeDep.
Import ListNotations.
Open Scope Z_scope.

(** ** Sortedness and lookup *)
Definition ids (l : table) : list Z := map fedID l.
Definition tsorted (l : table) : Prop := StronglySorted Z.lt (ids l).

Lemma lower_bound_app l g a b : lower_bound l g = (a, b) -> l = a ++ b.
Proof.
  revert a b; induction l as [|d r IH]; intros a b H; cbn in H.
  - inversion H; reflexivity.
  - destruct (fedID d <? g).
    + destruct (lower_bound r g) as [a' b'] eqn:E. inversion H; subst. cbn. f_equal. apply IH; reflexivity.
    + inversion H; reflexivity.
Qed.

Lemma lower_bound_lt l g a b : lower_bound l g = (a, b) -> Forall (fun d => fedID d < g) a.
Proof.
  revert a b; induction l as [|d r IH]; intros a b H; cbn in H.
  - inversion H; constructor.
  - destruct (fedID d <? g) eqn:E.
    + destruct (lower_bound r g) as [a' b'] eqn:E'. inversion H; subst. constructor; [lia|]. eapply IH; reflexivity.
    + inversion H; constructor.
Qed.

Lemma lower_bound_ge l g a b : tsorted l -> lower_bound l g = (a, b) -> Forall (fun d => g <= fedID d) b.
Proof.
  revert a b; induction l as [|d r IH]; intros a b S H; cbn in H.
  - inversion H; constructor.
  - inversion S as [|x y S' F]; subst. destruct (fedID d <? g) eqn:E.
    + destruct (lower_bound r g) as [a' b'] eqn:E'. inversion H; subst. eapply IH; [exact S'|reflexivity].
    + inversion H; subst. constructor; [lia|].
      unfold ids in F. rewrite Forall_map in F. eapply Forall_impl; [|exact F]. cbn; intros; lia.
Qed.

(** the general shape of every single-entry operation *)
Definition opt2l (o : option dinfo) : table := match o with None => [] | Some d => [d] end.
Definition alter (l : table) (g : Z) (f : option dinfo -> option dinfo) : table :=
  match lower_bound l g with
  | (a, d :: b) => if fedID d =? g then a ++ opt2l (f (Some d)) ++ b else a ++ opt2l (f None) ++ d :: b
  | (a, []) => a ++ opt2l (f None)
  end.
Definition keepsId (g : Z) (f : option dinfo -> option dinfo) : Prop :=
  forall o d, (forall d', o = Some d' -> fedID d' = g) -> f o = Some d -> fedID d = g.

Lemma sorted_app (a b : list Z) :
  StronglySorted Z.lt (a ++ b) <->
  StronglySorted Z.lt a /\ StronglySorted Z.lt b /\ (forall x y, In x a -> In y b -> x < y).
Proof.
  induction a as [|x a IH]; cbn.
  - split; [intros H; repeat split; [constructor|exact H|intros ? ? []]|intros (_&H&_); exact H].
  - split.
    + intros H; inversion H as [|? ? H1 H2]; subst. apply IH in H1 as (Ha&Hb&Hab).
      rewrite Forall_forall in H2. repeat split.
      * constructor; [exact Ha|]. rewrite Forall_forall. intros y Hy; apply H2, in_or_app; left; exact Hy.
      * exact Hb.
      * intros u y [->|Hu] Hy; [apply H2, in_or_app; right; exact Hy|apply Hab; assumption].
    + intros (Ha&Hb&Hab). inversion Ha as [|? ? H1 H2]; subst. constructor.
      * apply IH; repeat split; [exact H1|exact Hb|intros; apply Hab; [right|]; assumption].
      * rewrite Forall_forall in *. intros y Hy. apply in_app_or in Hy as [Hy|Hy]; [apply H2; exact Hy|].
        apply Hab; [left; reflexivity|exact Hy].
Qed.

Lemma ids_app a b : ids (a ++ b) = ids a ++ ids b.
Proof. apply map_app. Qed.
Lemma in_ids_forall (P : Z -> Prop) l : Forall (fun d => P (fedID d)) l -> forall x, In x (ids l) -> P x.
Proof. intros F x Hx. unfold ids in Hx. apply in_map_iff in Hx as (d&<-&Hd). rewrite Forall_forall in F. exact (F d Hd). Qed.

Lemma alter_sorted l g f : keepsId g f -> tsorted l -> tsorted (alter l g f).
Proof.
  intros K S. unfold alter. destruct (lower_bound l g) as [a b] eqn:E.
  pose proof (lower_bound_app _ _ _ _ E) as ->. pose proof (lower_bound_lt _ _ _ _ E) as La.
  pose proof (lower_bound_ge _ _ _ _ S E) as Gb.
  unfold tsorted in *. rewrite ids_app in S. apply sorted_app in S as (Sa&Sb&Sab).
  assert (Lx : forall x, In x (ids a) -> x < g) by (apply (in_ids_forall (fun x => x < g)); exact La).
  destruct b as [|d b].
  - rewrite ids_app. apply sorted_app. repeat split; [exact Sa| |].
    + destruct (f None) as [n|] eqn:F; cbn; repeat constructor.
    + intros x y Hx Hy. destruct (f None) as [n|] eqn:F; cbn in Hy; [|destruct Hy].
      destruct Hy as [<-|[]]. rewrite (K None n) by (exact F || discriminate). apply Lx; exact Hx.
  - cbn [ids map] in Sb. inversion Sb as [|? ? Sb' Fb]; subst. fold (ids b) in *.
    rewrite Forall_forall in Fb.
    destruct (fedID d =? g) eqn:Eg; rewrite !ids_app; apply sorted_app; (split; [exact Sa|]).
    + split.
      * apply sorted_app; repeat split; [| exact Sb' |].
        -- destruct (f (Some d)); cbn; repeat constructor.
        -- intros x y Hx Hy. destruct (f (Some d)) as [n|] eqn:F; cbn in Hx; [|destruct Hx].
           destruct Hx as [<-|[]]. rewrite (K (Some d) n); [|intros d' [= <-]; lia|exact F].
           specialize (Fb y Hy). lia.
      * intros x y Hx Hy. apply in_app_or in Hy as [Hy|Hy].
        -- destruct (f (Some d)) as [n|] eqn:F; cbn in Hy; [|destruct Hy].
           destruct Hy as [<-|[]]. rewrite (K (Some d) n); [|intros d' [= <-]; lia|exact F]. apply Lx; exact Hx.
        -- apply Sab; [exact Hx|]. right; exact Hy.
    + inversion Gb as [|? ? Gd Gb']; subst. split.
      * apply sorted_app; repeat split; [| exact Sb |].
        -- destruct (f None); cbn; repeat constructor.
        -- intros x y Hx Hy. destruct (f None) as [n|] eqn:F; cbn in Hx; [|destruct Hx].
           destruct Hx as [<-|[]]. rewrite (K None n) by (exact F || discriminate).
           destruct Hy as [<-|Hy]; [lia|]. specialize (Fb y Hy). lia.
      * intros x y Hx Hy. apply in_app_or in Hy as [Hy|Hy].
        -- destruct (f None) as [n|] eqn:F; cbn in Hy; [|destruct Hy].
           destruct Hy as [<-|[]]. rewrite (K None n) by (exact F || discriminate). apply Lx; exact Hx.
        -- apply Sab; [exact Hx|exact Hy].
Qed.

(** lookup as a plain search *)
Definition lookup (l : table) (g : Z) : option dinfo := find (fun d => fedID d =? g) l.

Lemma find_app {A} (p : A -> bool) a b : find p (a ++ b) = match find p a with Some x => Some x | None => find p b end.
Proof. induction a as [|x a IH]; cbn; [reflexivity|]. destruct (p x); [reflexivity|exact IH]. Qed.

Lemma lookup_notin l g : ~ In g (ids l) -> lookup l g = None.
Proof.
  induction l as [|d r IH]; cbn; [reflexivity|]. intros H. destruct (Z.eqb_spec (fedID d) g) as [E|E].
  - exfalso; apply H; left; exact E.
  - apply IH. intros Hin; apply H; right; exact Hin.
Qed.

Lemma lookup_some_id l g d : lookup l g = Some d -> fedID d = g /\ In d l.
Proof. intros H. apply find_some in H. split; [lia|tauto]. Qed.

Lemma getDep_lookup l g : tsorted l -> getDep l g = lookup l g.
Proof.
  intros S. unfold getDep, lookup. destruct (lower_bound l g) as [a b] eqn:E.
  pose proof (lower_bound_app _ _ _ _ E) as ->. pose proof (lower_bound_lt _ _ _ _ E) as La.
  pose proof (lower_bound_ge _ _ _ _ S E) as Gb. cbn [snd]. rewrite find_app.
  assert (find (fun d => fedID d =? g) a = None) as ->.
  { apply lookup_notin. intros Hin. pose proof (in_ids_forall (fun x => x < g) a La g Hin) as Hlt; cbn beta in Hlt; lia. }
  destruct b as [|d b]; cbn; [reflexivity|]. destruct (fedID d =? g) eqn:Eg; [reflexivity|].
  symmetry. apply lookup_notin. intros Hin.
  unfold tsorted in S. rewrite ids_app in S. apply sorted_app in S as (_&Sb&_).
  cbn [ids map] in Sb. inversion Sb as [|? ? _ Fb]; subst. rewrite Forall_forall in Fb. specialize (Fb g Hin).
  inversion Gb; subst. lia.
Qed.

Lemma lookup_alter l g f g' : keepsId g f -> tsorted l ->
  lookup (alter l g f) g' = if g' =? g then f (lookup l g) else lookup l g'.
Proof.
  intros K S. pose proof (getDep_lookup l g S) as HG. unfold getDep in HG. unfold alter.
  destruct (lower_bound l g) as [a b] eqn:E.
  pose proof (lower_bound_app _ _ _ _ E) as ->. pose proof (lower_bound_lt _ _ _ _ E) as La.
  pose proof (lower_bound_ge _ _ _ _ S E) as Gb. cbn [snd] in HG.
  assert (NA : forall x, x = g -> lookup a x = None).
  { intros x ->. apply lookup_notin. intros Hin. pose proof (in_ids_forall (fun x => x < g) a La g Hin) as Hlt; cbn beta in Hlt; lia. }
  assert (NB : forall d b', b = d :: b' -> fedID d = g -> lookup b' g = None).
  { intros d b' -> Hd. apply lookup_notin. intros Hin.
    unfold tsorted in S. rewrite ids_app in S. apply sorted_app in S as (_&Sb&_).
    cbn [ids map] in Sb. inversion Sb as [|? ? _ Fb]; subst. rewrite Forall_forall in Fb. specialize (Fb _ Hin). lia. }
  assert (NN : forall d b', b = d :: b' -> fedID d <> g -> lookup b g = None).
  { intros d b' -> Hd. apply lookup_notin. intros Hin.
    unfold tsorted in S. rewrite ids_app in S. apply sorted_app in S as (_&Sb&_).
    cbn [ids map] in Sb. inversion Sb as [|? ? _ Fb]; subst. rewrite Forall_forall in Fb.
    destruct Hin as [Hin|Hin]; [contradiction|]. specialize (Fb _ Hin). inversion Gb; subst; lia. }
  assert (LO : forall o, (forall n, o = Some n -> fedID n = g) ->
           lookup (opt2l o) g' = if g' =? g then o else None).
  { intros o Ho. destruct o as [n|]; cbn; [|destruct (g' =? g); reflexivity].
    rewrite (Ho n eq_refl). rewrite Z.eqb_sym. destruct (g' =? g); reflexivity. }
  unfold lookup in *. rewrite find_app in HG. destruct b as [|d b].
  - rewrite !find_app. rewrite <- HG.
    rewrite LO by (intros n Hn; apply (K None); [discriminate|exact Hn]).
    destruct (Z.eqb_spec g' g) as [->|Hne]; [rewrite NA by reflexivity; reflexivity|].
    destruct (find (fun d0 => fedID d0 =? g') a); reflexivity.
  - destruct (Z.eqb_spec (fedID d) g) as [Hd|Hd]; rewrite !find_app, <- HG.
    + rewrite LO by (intros n Hn; apply (K (Some d)); [intros d' [= <-]; exact Hd|exact Hn]).
      destruct (Z.eqb_spec g' g) as [->|Hne].
      * rewrite NA by reflexivity. rewrite (NB d b) by (reflexivity || exact Hd). destruct (f (Some d)); reflexivity.
      * destruct (find (fun d0 => fedID d0 =? g') a); [reflexivity|]. cbn. rewrite Hd.
        destruct (Z.eqb_spec g g'); [congruence|reflexivity].
    + rewrite LO by (intros n Hn; apply (K None); [discriminate|exact Hn]).
      destruct (Z.eqb_spec g' g) as [->|Hne].
      * rewrite NA by reflexivity. rewrite (NN d b) by (reflexivity || exact Hd). destruct (f None); reflexivity.
      * destruct (find (fun d0 => fedID d0 =? g') a); reflexivity.
Qed.

(** ** Every operation is an [alter] *)
Definition f_addDependency (g : Z) (o : option dinfo) : option dinfo :=
  match o with
  | None => Some (set_dependency true (newDep g))
  | Some d => let d := set_dependency true d in
              Some (if cTerminationTime <? next d
                    then updTD (fun t => set_next negEpsilon (set_lastGrant timeZero (set_tst ts_initialized t))) d
                    else d)
  end.
Definition f_addDependent (g : Z) (o : option dinfo) : option dinfo :=
  match o with
  | None => Some (set_dependent true (newDep g))
  | Some d => Some (set_dependent true d)
  end.
Definition f_removeDependency (o : option dinfo) : option dinfo :=
  match o with
  | None => None
  | Some d => if dependent d then Some (set_dependency false d) else None
  end.
Definition f_removeDependent (o : option dinfo) : option dinfo :=
  match o with
  | None => None
  | Some d => if dependency d then Some (set_dependent false d) else None
  end.
Definition f_upd (f : dinfo -> dinfo) (o : option dinfo) : option dinfo :=
  match o with None => None | Some d => Some (f d) end.
Definition f_erase (o : option dinfo) : option dinfo := None.
Definition f_reset (o : option dinfo) : option dinfo :=
  match o with
  | None => None
  | Some d => if ts_eqb (tst d) ts_time_granted && (cTerminationTime <=? lastGrant d) then Some (newDep (fedID d)) else Some d
  end.

Ltac alter_tac :=
  match goal with
  | |- context [lower_bound ?l ?g] =>
      let a := fresh "a" in let b := fresh "b" in let E := fresh "E" in
      destruct (lower_bound l g) as [a [|d b]] eqn:E;
      pose proof (lower_bound_app _ _ _ _ E) as ?
  end.

Lemma addDependency_alter l g : fst (addDependency l g) = alter l g (f_addDependency g).
Proof.
  unfold addDependency, alter. alter_tac; [reflexivity|]. destruct (fedID d =? g) eqn:Eg; [|reflexivity].
  cbn. destruct (cTerminationTime <? _); reflexivity.
Qed.
Lemma addDependent_alter l g : fst (addDependent l g) = alter l g (f_addDependent g).
Proof. unfold addDependent, alter. alter_tac; [reflexivity|]. destruct (fedID d =? g) eqn:Eg; reflexivity. Qed.
Lemma removeDependency_alter l g : removeDependency l g = alter l g f_removeDependency.
Proof.
  unfold removeDependency, alter. alter_tac; [cbn; rewrite app_nil_r in *; assumption|].
  destruct (fedID d =? g) eqn:Eg; [|cbn; assumption]. cbn. destruct (dependent d); reflexivity.
Qed.
Lemma removeDependent_alter l g : removeDependent l g = alter l g f_removeDependent.
Proof.
  unfold removeDependent, alter. alter_tac; [cbn; rewrite app_nil_r in *; assumption|].
  destruct (fedID d =? g) eqn:Eg; [|cbn; assumption]. cbn. destruct (dependency d); reflexivity.
Qed.
Lemma updDep_alter l g f : updDep l g f = alter l g (f_upd f).
Proof.
  unfold updDep, alter. alter_tac; [cbn; rewrite app_nil_r in *; assumption|].
  destruct (fedID d =? g) eqn:Eg; [|cbn; assumption]. reflexivity.
Qed.
Lemma removeInter_alter l g : removeInterdependence l g = alter l g f_erase.
Proof.
  unfold removeInterdependence, alter. alter_tac; [cbn; rewrite app_nil_r in *; assumption|].
  destruct (fedID d =? g) eqn:Eg; [|cbn; assumption]. reflexivity.
Qed.
Lemma resetDependency_alter l g : resetDependency l g = alter l g f_reset.
Proof.
  unfold resetDependency, alter. alter_tac; [cbn; rewrite app_nil_r in *; assumption|].
  destruct (fedID d =? g) eqn:Eg; [|cbn; assumption]. cbn [andb f_reset].
  destruct (ts_eqb (tst d) ts_time_granted && (cTerminationTime <=? lastGrant d)); [reflexivity|cbn; assumption].
Qed.

Lemma keepsId_addDependency g : keepsId g (f_addDependency g).
Proof.
  intros o d Ho H. destruct o as [e|]; cbn in H.
  - destruct (cTerminationTime <? _); inversion H; subst; cbn; apply (Ho e); reflexivity.
  - inversion H; reflexivity.
Qed.
Lemma keepsId_addDependent g : keepsId g (f_addDependent g).
Proof. intros o d Ho H. destruct o as [e|]; cbn in H; [|inversion H; reflexivity]. inversion H; subst; cbn. apply (Ho e); reflexivity. Qed.
Lemma keepsId_removeDependency g : keepsId g f_removeDependency.
Proof. intros o d Ho H. destruct o as [e|]; cbn in H; [|discriminate]. destruct (dependent e); inversion H; subst. apply (Ho e); reflexivity. Qed.
Lemma keepsId_removeDependent g : keepsId g f_removeDependent.
Proof. intros o d Ho H. destruct o as [e|]; cbn in H; [|discriminate]. destruct (dependency e); inversion H; subst. apply (Ho e); reflexivity. Qed.
Lemma keepsId_upd g f : (forall d, fedID (f d) = fedID d) -> keepsId g (f_upd f).
Proof. intros F o d Ho H. destruct o as [e|]; cbn in H; [|discriminate]. inversion H; subst. rewrite F. apply (Ho e); reflexivity. Qed.
Lemma keepsId_erase g : keepsId g f_erase.
Proof. intros o d Ho H. discriminate H. Qed.
Lemma keepsId_reset g : keepsId g f_reset.
Proof.
  intros o d Ho H. destruct o as [e|]; cbn in H; [|discriminate].
  destruct (_ && _); injection H as <-; cbn; apply (Ho e); reflexivity.
Qed.

(** ** What a timing message changes in an entry *)
Lemma processMessage_static cmd d :
  fedID (fst (processMessage cmd d)) = fedID d /\ dependency (fst (processMessage cmd d)) = dependency d
  /\ dependent (fst (processMessage cmd d)) = dependent d /\ connection (fst (processMessage cmd d)) = connection d.
Proof.
  unfold processMessage, clearUpdateReq. destruct (tkind_of (m_action cmd)); cbn;
  repeat match goal with |- context [if ?b then _ else _] => destruct b; cbn end; repeat split.
Qed.

Lemma updateTime_alter l cmd : tsorted l ->
  fst (updateTime l cmd) =
  alter l (m_source_id cmd) (f_upd (fun d => if dependency d then fst (processMessage cmd d) else d)).
Proof.
  intros S. unfold updateTime. unfold getDep. rewrite <- updDep_alter. unfold updDep.
  destruct (lower_bound l (m_source_id cmd)) as [a [|d b]] eqn:E; cbn [snd].
  - reflexivity.
  - destruct (fedID d =? m_source_id cmd) eqn:Eg; [|reflexivity].
    destruct (dependency d) eqn:Ed; [reflexivity|].
    cbn [negb fst]. apply (lower_bound_app _ _ _ _ E).
Qed.

(** ** Abstract view: who is a dependency / dependent *)
Inductive tdop :=
| OpAddDependency (g : Z) | OpRemoveDependency (g : Z) | OpAddDependent (g : Z) | OpRemoveDependent (g : Z)
| OpRemoveInterdependence (g : Z) | OpMessage (cmd : amsg).

Definition applyOp (l : table) (o : tdop) : table :=
  match o with
  | OpAddDependency g => fst (addDependency l g)
  | OpRemoveDependency g => removeDependency l g
  | OpAddDependent g => fst (addDependent l g)
  | OpRemoveDependent g => removeDependent l g
  | OpRemoveInterdependence g => removeInterdependence l g
  | OpMessage cmd => fst (updateTime l cmd)
  end.
Definition applyOps (l : table) (os : list tdop) : table := fold_left applyOp os l.

(** the federate an operation is about *)
Definition opTarget (o : tdop) : Z :=
  match o with
  | OpAddDependency g | OpRemoveDependency g | OpAddDependent g | OpRemoveDependent g
  | OpRemoveInterdependence g => g
  | OpMessage cmd => m_source_id cmd
  end.
Definition opFun (o : tdop) : option dinfo -> option dinfo :=
  match o with
  | OpAddDependency g => f_addDependency g
  | OpRemoveDependency _ => f_removeDependency
  | OpAddDependent g => f_addDependent g
  | OpRemoveDependent _ => f_removeDependent
  | OpRemoveInterdependence _ => f_erase
  | OpMessage cmd => f_upd (fun d => if dependency d then fst (processMessage cmd d) else d)
  end.

Lemma opFun_keepsId o : keepsId (opTarget o) (opFun o).
Proof.
  destruct o; cbn.
  - apply keepsId_addDependency. - apply keepsId_removeDependency. - apply keepsId_addDependent.
  - apply keepsId_removeDependent. - apply keepsId_erase.
  - apply keepsId_upd. intros d. destruct (dependency d); [apply processMessage_static|reflexivity].
Qed.
Lemma applyOp_alter l o : tsorted l -> applyOp l o = alter l (opTarget o) (opFun o).
Proof.
  intros S. destruct o; cbn.
  - apply addDependency_alter. - apply removeDependency_alter. - apply addDependent_alter.
  - apply removeDependent_alter. - apply removeInter_alter. - apply updateTime_alter; exact S.
Qed.
Lemma applyOp_sorted l o : tsorted l -> tsorted (applyOp l o).
Proof. intros S. rewrite applyOp_alter by exact S. apply alter_sorted; [apply opFun_keepsId|exact S]. Qed.
Lemma applyOps_sorted l os : tsorted l -> tsorted (applyOps l os).
Proof. revert l; induction os as [|o os IH]; intros l S; cbn; [exact S|]. apply IH, applyOp_sorted, S. Qed.
Lemma applyOp_lookup l o g : tsorted l ->
  getDep (applyOp l o) g = if g =? opTarget o then opFun o (getDep l g) else getDep l g.
Proof.
  intros S. rewrite !getDep_lookup by (try apply applyOp_sorted; exact S).
  rewrite applyOp_alter by exact S. rewrite lookup_alter by (exact S || apply opFun_keepsId).
  destruct (Z.eqb_spec g (opTarget o)) as [->|]; reflexivity.
Qed.
Lemma isDependency_getDep l g : isDependency l g = match getDep l g with Some d => dependency d | None => false end.
Proof. unfold isDependency, getDep. destruct (snd (lower_bound l g)); [reflexivity|]. destruct (fedID d =? g); reflexivity. Qed.
Lemma isDependent_getDep l g : isDependent l g = match getDep l g with Some d => dependent d | None => false end.
Proof. unfold isDependent, getDep. destruct (snd (lower_bound l g)); [reflexivity|]. destruct (fedID d =? g); reflexivity. Qed.

(** an entry is only kept while the federate is a dependency or a dependent *)
Definition entriesUsed (l : table) : Prop := forall g d, getDep l g = Some d -> dependency d || dependent d = true.
Lemma applyOp_used l o : tsorted l -> entriesUsed l -> entriesUsed (applyOp l o).
Proof.
  intros S U g d. rewrite applyOp_lookup by exact S. destruct (Z.eqb_spec g (opTarget o)) as [Hg|Hg]; [|apply U].
  specialize (U g). destruct o as [h|h|h|h|h|cmd]; cbn [opFun]; destruct (getDep l g) as [e|]; cbn; intros H;
    try discriminate H; try specialize (U e eq_refl).
  - destruct (cTerminationTime <? _); inversion H; subst; reflexivity.
  - inversion H; subst; reflexivity.
  - destruct (dependent e) eqn:De; inversion H; subst. cbn. rewrite De; rewrite ?orb_true_r; reflexivity.
  - inversion H; subst; cbn; apply orb_true_r.
  - inversion H; subst; reflexivity.
  - destruct (dependency e) eqn:De; inversion H; subst. cbn. rewrite De; reflexivity.
  - inversion H; subst. destruct (dependency e) eqn:De; [|rewrite De; exact U].
    destruct (processMessage_static cmd e) as (_&->&->&_). rewrite De; reflexivity.
Qed.

(** the specification: only the last add/remove of the federate counts *)
Fixpoint latestDependency (g : Z) (os : list tdop) : bool :=   (* newest first *)
  match os with
  | [] => false
  | OpAddDependency h :: r => if h =? g then true else latestDependency g r
  | OpRemoveDependency h :: r => if h =? g then false else latestDependency g r
  | OpRemoveInterdependence h :: r => if h =? g then false else latestDependency g r
  | _ :: r => latestDependency g r
  end.
Fixpoint latestDependent (g : Z) (os : list tdop) : bool :=
  match os with
  | [] => false
  | OpAddDependent h :: r => if h =? g then true else latestDependent g r
  | OpRemoveDependent h :: r => if h =? g then false else latestDependent g r
  | OpRemoveInterdependence h :: r => if h =? g then false else latestDependent g r
  | _ :: r => latestDependent g r
  end.

Lemma applyOps_snoc l os o : applyOps l (os ++ [o]) = applyOp (applyOps l os) o.
Proof. unfold applyOps. rewrite fold_left_app. reflexivity. Qed.

Lemma latest_spec os g :
  let l := applyOps [] os in
  tsorted l /\ entriesUsed l /\
  isDependency l g = latestDependency g (rev os) /\ isDependent l g = latestDependent g (rev os).
Proof.
  cbn zeta. revert g; induction os as [|o os IH] using rev_ind; intros g.
  - repeat split; try constructor. intros h d H; discriminate H.
  - rewrite applyOps_snoc, rev_app_distr. cbn [rev app].
    set (l := applyOps [] os) in *.
    assert (S : tsorted l) by apply (IH g). assert (U : entriesUsed l) by apply (IH g).
    repeat split; [apply applyOp_sorted; exact S | apply applyOp_used; assumption | |];
    specialize (IH g) as (_&_&ID&IT); rewrite isDependency_getDep in *; rewrite isDependent_getDep in *.
    + rewrite applyOp_lookup by exact S.
      destruct o as [h|h|h|h|h|cmd]; cbn [opTarget opFun latestDependency].
      * rewrite (Z.eqb_sym h g). destruct (g =? h); [|exact ID]. destruct (getDep l g) as [d|]; cbn; [|reflexivity].
        destruct (cTerminationTime <? _); reflexivity.
      * rewrite (Z.eqb_sym h g). destruct (g =? h); [|exact ID]. destruct (getDep l g) as [d|]; cbn; [|reflexivity].
        destruct (dependent d); reflexivity.
      * destruct (g =? h); [|exact ID]. destruct (getDep l g) as [d|]; cbn; exact ID.
      * destruct (g =? h); [|exact ID]. destruct (getDep l g) as [d|]; cbn; [|exact ID].
        destruct (dependency d) eqn:Ed; [cbn; rewrite Ed|]; exact ID.
      * rewrite (Z.eqb_sym h g). destruct (g =? h); [reflexivity|exact ID].
      * destruct (g =? m_source_id cmd); [|exact ID]. destruct (getDep l g) as [d|]; cbn; [|exact ID].
        destruct (dependency d) eqn:Ed; [destruct (processMessage_static cmd d) as (_&->&_)|]; rewrite ?Ed in *; exact ID.
    + rewrite applyOp_lookup by exact S.
      destruct o as [h|h|h|h|h|cmd]; cbn [opTarget opFun latestDependent].
      * destruct (g =? h); [|exact IT]. destruct (getDep l g) as [d|]; cbn; [|exact IT].
        destruct (cTerminationTime <? _); exact IT.
      * destruct (g =? h); [|exact IT]. destruct (getDep l g) as [d|]; cbn; [|exact IT].
        destruct (dependent d) eqn:Ed; [cbn; rewrite Ed|]; exact IT.
      * rewrite (Z.eqb_sym h g). destruct (g =? h); [|exact IT]. destruct (getDep l g) as [d|]; reflexivity.
      * rewrite (Z.eqb_sym h g). destruct (g =? h); [|exact IT]. destruct (getDep l g) as [d|]; cbn; [|reflexivity].
        destruct (dependency d); reflexivity.
      * rewrite (Z.eqb_sym h g). destruct (g =? h); [reflexivity|exact IT].
      * destruct (g =? m_source_id cmd); [|exact IT]. destruct (getDep l g) as [d|]; cbn; [|exact IT].
        destruct (dependency d) eqn:Ed; [destruct (processMessage_static cmd d) as (_&_&->&_)|]; exact IT.
Qed.

Lemma tsorted_nodup l : tsorted l -> NoDup (ids l).
Proof.
  unfold tsorted. induction (ids l) as [|x xs IH]; intros H; [constructor|].
  inversion H as [|? ? H1 H2]; subst. constructor; [|apply IH; exact H1].
  intros Hin. rewrite Forall_forall in H2. specialize (H2 x Hin). lia.
Qed.
