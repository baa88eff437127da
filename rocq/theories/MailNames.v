(** * C50: when the name of an endpoint is known; examples *)
From Coq Require Import String ZArith Bool List Lia ZifyBool.
From Verif Require Import HTime Action Interfaces PropsInput Ids Route RouteInv PropsRoute Deliver PropsDeliver Mail PropsMail MailFlow RouteLive.
Import ListNotations.
Open Scope Z_scope.

(** ** a name which nobody registers *)
Section Unknown.
Variable T : topology.
Notation mstep := (mstep T).
Notation mrun := (mrun T).
Hypothesis HT : tree T.
Variable n : string.
Definition never (es : list mevent) : Prop := forall K g, ~ In (P_register K g n) es.
Lemma never_owned es K h : never es -> ~ In (n, h) (p_own (mrun es) K).
Proof.
  induction es as [|e es IH] using rev_ind; intros N; [intros []|]. assert (N' : never es) by (intros K' g I; apply (N K' g), in_or_app; auto). rewrite mrun_snoc. destruct (own_step T (mrun es) e K) as [->|(g & m & -> & -> & _)]; [apply IH, N'|].
  intros I. apply in_app_or in I as [I|[I|[]]]; [apply (IH N' I)|]. injection I as -> _. apply (N K g), in_or_app. right. left. reflexivity.
Qed.
Lemma never_known es x : never es -> lookupName (p_names (mrun es) x) n = None.
Proof.
  intros N. destruct (lookupName _ _) as [h|] eqn:L; [|reflexivity]. exfalso. apply lookup_in in L. destruct (o_names _ _ _ (traced_run T es) x n h L) as (K & I & _). apply (never_owned es K h N I).
Qed.
Definition nowhere (m : msg) : Prop := k_name m = n /\ k_dest m = None.
Definition verdict (m : msg) : outcome := if k_opt m then Dropped else Reported.
Definition tracked (es : list mevent) (s : msys) : Prop :=
  (forall x y m, In (Mail m) (p_links s x y) -> exists m0, In m0 (mails T es) /\ k_seq m = k_seq m0 /\ (nowhere m0 -> m = m0))
  /\ forall q o, In (q, o) (p_log s) -> exists m0, In m0 (mails T es) /\ q = k_seq m0 /\ (nowhere m0 -> o = verdict m0).
Lemma does_nowhere es y m s1 : never es -> p_names s1 = p_names (mrun es) -> nowhere m -> (exists z, does T y (Mail m) s1 = putOn y z [Mail m] s1) \/ comesTo m (verdict m) s1 (does T y (Mail m) s1).
Proof.
  intros N NM [NN ND]. unfold does. destruct (t_core T y) eqn:C.
  - unfold coreDoes. rewrite ND, NN, NM, (never_known es y N). assert (NR : y <> t_root T) by (intros ->; destruct HT as (_ & Q & _); congruence). destruct (has_parent T HT y NR) as [p P]. unfold up. rewrite P. left. eexists. reflexivity.
  - unfold brokerDoes. rewrite ND, NN, NM, (never_known es y N). destruct (Nat.eqb_spec y (t_root T)) as [->|NR].
    + right. unfold verdict. destruct (k_opt m); repeat split.
    + destruct (has_parent T HT y NR) as [p P]. unfold up. rewrite P. left. eexists. reflexivity.
Qed.
Lemma tracked_run es : never es -> tracked es (mrun es).
Proof.
  induction es as [|e es IH] using rev_ind; intros N; [split; [intros x y m []|intros q o []]|]. assert (N' : never es) by (intros K' g I; apply (N K' g), in_or_app; auto). destruct (IH N') as [L G]. clear IH.
  assert (GL : forall m, (exists m0, In m0 (mails T es) /\ k_seq m = k_seq m0 /\ (nowhere m0 -> m = m0)) -> exists m0, In m0 (mails T (es ++ [e])) /\ k_seq m = k_seq m0 /\ (nowhere m0 -> m = m0)) by (intros m (m0 & I & H); exists m0; split; [rewrite mails_snoc; apply in_or_app; auto|exact H]).
  assert (GG : forall q o, (exists m0, In m0 (mails T es) /\ q = k_seq m0 /\ (nowhere m0 -> o = verdict m0)) -> exists m0, In m0 (mails T (es ++ [e])) /\ q = k_seq m0 /\ (nowhere m0 -> o = verdict m0)) by (intros q o (m0 & I & H); exists m0; split; [rewrite mails_snoc; apply in_or_app; auto|exact H]).
  assert (NEW : forall m, In m (mailsOf (mrun es) e) -> exists m0, In m0 (mails T (es ++ [e])) /\ k_seq m = k_seq m0 /\ (nowhere m0 -> m = m0)) by (intros m I; exists m; split; [rewrite mails_snoc; apply in_or_app; auto|auto]).
  unfold tracked. rewrite mrun_snoc. set (s := mrun es) in *. destruct e as [e|K g m|K a m opt data|K a ts data|x y]; cbn [Mail.mstep].
  - split; [intros x y m I; apply GL, (L x y m I)|intros q o I; apply GG, (G q o I)].
  - unfold registerEnd. destruct (localFed _ _ && _); split; try (intros q o I; apply GG, (G q o I)); intros x y m' I; [|apply GL, (L x y m' I)].
    rewrite putOn_links in I. apply in_app_or in I as [I|I]; [apply GL, (L x y m' I)|]. revert I. edge; [|intros []]. intros [Q|[]]. discriminate.
  - unfold sendName. cbn [mailsOf] in NEW. destruct (localFed _ _); split; try (intros q o I; apply GG, (G q o I)); intros x y m' I; [|apply GL, (L x y m' I)].
    rewrite putOn_links in I. apply in_app_or in I as [I|I]; [apply GL, (L x y m' I)|]. revert I. edge; [|intros []]. intros [Q|[]]. injection Q as Q. apply NEW. left. exact Q.
  - unfold sendTargets. cbn [mailsOf] in NEW. rewrite <- copies_toTargets in NEW. destruct (localFed _ _); split; try (intros q o I; apply GG, (G q o I)); intros x y m' I; [|apply GL, (L x y m' I)].
    rewrite putOn_links in I. apply in_app_or in I as [I|I]; [apply GL, (L x y m' I)|]. revert I. edge; [|intros []]. intros I. apply in_map_iff in I as (m & Q & I). injection Q as ->. apply NEW, I.
  - destruct (p_links s x y) as [|e r] eqn:LK; [rewrite attend_none by exact LK; split; [intros x' y' m I; apply GL, (L x' y' m I)|intros q o I; apply GG, (G q o I)]|]. rewrite (attend_some _ _ _ _ _ _ LK). set (s1 := popped x y r s).
    assert (LI : forall u v e', In e' (p_links s1 u v) -> In e' (p_links s u v)). { intros u v e'. unfold s1, popped. cbn [p_links set_p_links]. destruct (Nat.eqb u x && Nat.eqb v y) eqn:E; [|auto]. apply edge_eqb in E. injection E as -> ->. rewrite LK. intros I. right. exact I. }
    assert (HD : In e (p_links s x y)) by (rewrite LK; left; reflexivity). destruct e as [m h|m].
    + assert (LL : (forall u v m', In (Mail m') (p_links (does T y (Reg m h) s1) u v) -> In (Mail m') (p_links s u v)) /\ p_log (does T y (Reg m h) s1) = p_log s).
      { destruct (does_reg T y m h s1) as [->|[->|(z & _ & ->)]]; (split; [|reflexivity]); intros u v m' I; try exact (LI _ _ _ I). rewrite putOn_links in I. apply in_app_or in I as [I|I]; [exact (LI _ _ _ I)|]. revert I. edge; [|intros []]. intros [Q|[]]. discriminate. }
      destruct LL as [L1 L2]. rewrite L2. split; [intros u v m' I; apply GL, (L u v m' (L1 _ _ _ I))|intros q o I; apply GG, (G q o I)].
    + destruct (L x y m HD) as (m0 & I0 & S0 & W0). split.
      * intros u v m' I. apply GL. destruct (does_mail T y m s1) as [[(z & E)|(h & (z & E) & DN & LN)]|(o & (C1 & _) & _)].
        -- rewrite E in I. rewrite putOn_links in I. apply in_app_or in I as [I|I]; [apply (L u v m' (LI _ _ _ I))|]. revert I. edge; [|intros []]. intros [Q|[]]. injection Q as <-. eauto.
        -- rewrite E in I. rewrite putOn_links in I. apply in_app_or in I as [I|I]; [apply (L u v m' (LI _ _ _ I))|]. revert I. edge; [|intros []]. intros [Q|[]]. injection Q as <-. exists m0. split; [exact I0|]. split; [exact S0|].
           intros NW. exfalso. pose proof (W0 NW) as Q. rewrite Q in LN. destruct NW as [NW _]. rewrite NW in LN. change (p_names s1 y) with (p_names (mrun es) y) in LN. rewrite (never_known es y N') in LN. discriminate.
        -- rewrite C1 in I. apply (L u v m' (LI _ _ _ I)).
      * intros q o I. apply GG. destruct (does_mail T y m s1) as [[(z & E)|(h & (z & E) & DN & LN)]|(o' & (C1 & C2 & _) & _)]; [rewrite E in I; apply (G q o I)|rewrite E in I; apply (G q o I)|].
        rewrite C2 in I. apply in_app_or in I as [I|[I|[]]]; [apply (G q o I)|]. injection I as <- <-. exists m0. split; [exact I0|]. split; [exact S0|]. intros NW. pose proof (W0 NW) as Q. rewrite Q in *.
        destruct (does_nowhere es y m0 s1 N' eq_refl NW) as [(z & E)|(_ & C3 & _)].
        -- exfalso. rewrite E in C2. cbn [p_log putOn set_p_links] in C2. apply (f_equal (@length _)) in C2. rewrite app_length in C2. cbn [length] in C2. lia.
        -- rewrite C2 in C3. apply app_inv_head in C3. injection C3 as ->. reflexivity.
Qed.
(** a message to a name which nobody registers is handed to nobody: its sender is warned, unless the message is optional *)
Theorem C50_unknown_name_is_reported es m o : never es -> In m (mails T es) -> k_name m = n -> k_dest m = None -> In (k_seq m, o) (p_log (mrun es)) -> o = if k_opt m then Dropped else Reported.
Proof.
  intros N I NN ND IL. destruct (proj2 (tracked_run es N) _ _ IL) as (m0 & I0 & Q & W). assert (E : m0 = m).
  { assert (U : NoDup (map k_seq (mails T es))) by (rewrite C50_messages_are_numbered; apply seq_NoDup). clear -U I I0 Q. induction (mails T es) as [|x l IH]; [destruct I|]. inversion U as [|? ? U1 U2]. subst. destruct I as [->|I], I0 as [->|I0]; [reflexivity| | |apply IH; assumption]; exfalso; apply U1; [rewrite Q|rewrite <- Q]; apply in_map; assumption. }
  subst m0. apply W. split; assumption.
Qed.
End Unknown.

Section Names.
Variable T : topology.
Notation mstep := (mstep T).
Notation mrun := (mrun T).
Hypothesis HT : tree T.
Variables (n : string) (K : nat).
Hypothesis named : n <> ""%string.

Definition isReg (e : entry) : bool := match e with Reg n' _ => String.eqb n' n | Mail _ => false end.
Definition regs (s : msys) (x y : nat) : list entry := filter isReg (p_links s x y).
Definition hasName (l : list (string * (Z * Z))) : bool := match lookupName l n with Some _ => true | None => false end.
(** the announcement is at the connection from u to v: those below v know, v and those above it do not *)
Definition pending (s : msys) (h : Z * Z) (u v : nat) : Prop :=
  regs s u v = [Reg n h] /\ (forall x y, (x, y) <> (u, v) -> regs s x y = []) /\ below T v K
  /\ (forall x, below T x K -> ~ below T x v -> lookupName (p_names s x) n = Some h) /\ (forall x, below T x v -> lookupName (p_names s x) n = None).
Definition done (s : msys) (h : Z * Z) : Prop := (forall x y, regs s x y = []) /\ forall x, below T x K -> lookupName (p_names s x) n = Some h.
Definition unborn (s : msys) : Prop := (forall x y, regs s x y = []) /\ (forall x, lookupName (p_names s x) n = None) /\ lookupName (p_own s K) n = None.
Definition stage (s : msys) : Prop := unborn s \/ exists h, lookupName (p_own s K) n = Some h /\ (done s h \/ exists u v, pending s h u v).

Lemma lookup_app l m k : lookupName (l ++ m) k = match lookupName l k with Some h => Some h | None => lookupName m k end.
Proof. unfold lookupName. induction l as [|p l IH]; [reflexivity|]. cbn [app find]. destruct (String.eqb (fst p) k); [reflexivity|exact IH]. Qed.
Lemma lookup_one m h k : lookupName [(m, h)] k = if String.eqb m k then Some h else None.
Proof. unfold lookupName. cbn. destruct (String.eqb m k); reflexivity. Qed.
(** nothing the name is concerned with changes *)
Lemma stage_same s s' : (forall x y, regs s' x y = regs s x y) -> (forall x, lookupName (p_names s' x) n = lookupName (p_names s x) n) -> lookupName (p_own s' K) n = lookupName (p_own s K) n -> 
  (stage s -> stage s') /\ (forall h, done s h -> done s' h) /\ (forall h u v, pending s h u v -> pending s' h u v).
Proof.
  intros R N O. assert (D : forall h, done s h -> done s' h). { intros h [A B]. split; [intros; rewrite R; apply A|intros; rewrite N; apply B; assumption]. }
  assert (P : forall h u v, pending s h u v -> pending s' h u v). { intros h u v (A & B & C & E & F). split; [rewrite R; exact A|]. split; [intros; rewrite R; apply B; assumption|]. split; [exact C|]. split; intros; rewrite N; auto. }
  split; [|split; [exact D|exact P]]. intros [(A & B & C)|(h & A & B)]; [left|right].
  - split; [intros; rewrite R; apply A|]. split; [intros; rewrite N; apply B|rewrite O; exact C].
  - exists h. rewrite O. split; [exact A|]. destruct B as [B|(u & v & B)]; [left; apply D, B|right; exists u, v; apply P, B].
Qed.
Lemma regs_put x y l s u v : regs (putOn x y l s) u v = regs s u v ++ if Nat.eqb u x && Nat.eqb v y then filter isReg l else [].
Proof. unfold regs. rewrite putOn_links, filter_app. f_equal. edge; reflexivity. Qed.
Lemma regs_mails l : filter isReg (map Mail l) = []. Proof. induction l as [|m l IH]; [reflexivity|exact IH]. Qed.
Lemma below_parent x v p : t_parent T v = Some p -> below T x v -> x = v \/ below T x p.
Proof. intros P B. destruct B as [|v q Q B]; [auto|right]. congruence. Qed.
Lemma below_root_inv x : below T x (t_root T) -> x = t_root T.
Proof. intros B. inversion B as [|? p P _]; [reflexivity|]. destruct HT as (R & _). congruence. Qed.
Lemma not_below v p : t_parent T v = Some p -> ~ below T v p.
Proof. intros P B. pose proof (proj1 (below_depth T HT _ _ B)) as D. pose proof (parent_depth T HT _ _ P). lia. Qed.
(** a node which does not know the name learns it and tells its parent *)
Lemma does_new v h s : lookupName (p_names s v) n = None -> does T v (Reg n h) s = if Nat.eqb v (t_root T) then learn v n h s else match t_parent T v with Some p => putOn v p [Reg n h] (learn v n h s) | None => learn v n h s end.
Proof.
  intros L. unfold does, coreDoes, brokerDoes, up. destruct (t_core T v) eqn:C.
  - destruct (String.eqb_spec n ""); [contradiction|]. destruct (Nat.eqb_spec v (t_root T)) as [->|N]; [|reflexivity]. destruct HT as (_ & Q & _). congruence.
  - rewrite L. destruct (Nat.eqb v (t_root T)); reflexivity.
Qed.
Lemma advance s h u v : pending s h u v -> forall e r, p_links s u v = e :: r -> isReg e = true ->
  let s' := attend T u v s in match t_parent T v with Some p => pending s' h v p | None => done s' h end.
Proof.
  intros (A & B & C & D & F) e r LK IR. cbv zeta. rewrite (attend_some _ _ _ _ _ _ LK). set (s1 := popped u v r s).
  assert (E0 : e = Reg n h /\ filter isReg r = []). { unfold regs in A. rewrite LK in A. cbn [filter] in A. rewrite IR in A. injection A as -> ->. auto. } destruct E0 as [-> FR].
  assert (R1 : forall x y, regs s1 x y = []). { intros x y. unfold regs, s1, popped. cbn [p_links set_p_links]. destruct (Nat.eqb x u && Nat.eqb y v) eqn:Q; [exact FR|]. apply B. intros Z. apply edge_eqb in Z. congruence. }
  rewrite does_new by (apply F; constructor).
  assert (NL : forall x, below T x K -> (x = v \/ ~ below T x v) -> lookupName (p_names (learn v n h s1) x) n = Some h).
  { intros x BX Q. cbn [p_names learn set_p_names]. destruct (Nat.eqb_spec x v) as [->|N].
    - rewrite lookup_app. change (p_names s1 v) with (p_names s v). rewrite (F v) by constructor. rewrite lookup_one, String.eqb_refl. reflexivity.
    - apply D; [exact BX|]. destruct Q; [contradiction|assumption]. }
  destruct (Nat.eqb_spec v (t_root T)) as [->|NR].
  - destruct HT as (-> & _). split; [exact R1|]. intros x BX. apply NL; [exact BX|]. destruct (Nat.eq_dec x (t_root T)) as [->|N]; [auto|right]. intros Q. apply N, below_root_inv, Q.
  - destruct (has_parent T HT v NR) as [p P]. rewrite P. assert (NV : v <> p) by (intros Q; pose proof (parent_depth T HT _ _ P); rewrite Q in *; lia). split; [|split; [|split; [|split]]].
    + rewrite regs_put. change (regs (learn v n h s1) v p) with (regs s1 v p). rewrite R1, !Nat.eqb_refl. cbn [andb app filter isReg]. rewrite String.eqb_refl. reflexivity.
    + intros x y N. rewrite regs_put, (edge_neq _ _ _ _ N), app_nil_r. apply R1.
    + apply (below_trans T p v K); [apply (below_up T p v p P); constructor|exact C].
    + intros x BX NB. apply NL; [exact BX|]. destruct (Nat.eq_dec x v) as [->|N]; [auto|right]. intros Q. destruct (below_parent _ _ _ P Q); contradiction.
    + intros x BX. cbn [p_names putOn set_p_links learn set_p_names]. destruct (Nat.eqb_spec x v) as [->|N]; [contradiction (not_below _ _ P BX)|]. apply F, (below_trans T x p v); [exact BX|apply (below_up T p v p P); constructor].
Qed.
Lemma other_reg y m h s : m <> n -> let s' := does T y (Reg m h) s in (forall u v, regs s' u v = regs s u v) /\ (forall x, lookupName (p_names s' x) n = lookupName (p_names s x) n) /\ p_own s' = p_own s.
Proof.
  intros N. cbv zeta. assert (LN : forall x, lookupName (p_names (learn y m h s) x) n = lookupName (p_names s x) n).
  { intros x. cbn [p_names learn set_p_names]. destruct (Nat.eqb x y); [|reflexivity]. rewrite lookup_app, lookup_one. destruct (String.eqb_spec m n); [contradiction|]. destruct (lookupName _ _); reflexivity. }
  destruct (does_reg T y m h s) as [->|[->|(z & _ & ->)]]; [auto|split; [reflexivity|split; [exact LN|reflexivity]]|].
  split; [|split; [exact LN|reflexivity]]. intros u v. rewrite regs_put. cbn [filter isReg]. destruct (String.eqb_spec m n); [contradiction|]. edge; apply app_nil_r.
Qed.
Lemma mail_stays y m s : let s' := does T y (Mail m) s in (forall u v, regs s' u v = regs s u v) /\ (forall x, lookupName (p_names s' x) n = lookupName (p_names s x) n) /\ p_own s' = p_own s.
Proof.
  cbv zeta. assert (PU : forall z m', (forall u v, regs (putOn y z [Mail m'] s) u v = regs s u v)) by (intros z m' u v; rewrite regs_put; cbn [filter isReg]; edge; apply app_nil_r).
  destruct (does_mail T y m s) as [[(z & ->)|(h & (z & ->) & _)]|(o & (C1 & _ & _ & C4 & C5 & _) & _)].
  - split; [apply PU|split; reflexivity].
  - split; [apply PU|split; reflexivity].
  - split; [intros; unfold regs; rewrite C1; reflexivity|]. rewrite C4. auto.
Qed.
Lemma serve_other x y s e r : p_links s x y = e :: r -> isReg e = false -> let s' := attend T x y s in (forall u v, regs s' u v = regs s u v) /\ (forall x, lookupName (p_names s' x) n = lookupName (p_names s x) n) /\ p_own s' = p_own s.
Proof.
  intros LK IR. cbv zeta. rewrite (attend_some _ _ _ _ _ _ LK). set (s1 := popped x y r s).
  assert (R1 : forall u v, regs s1 u v = regs s u v). { intros u v. unfold regs, s1, popped. cbn [p_links set_p_links]. destruct (Nat.eqb u x && Nat.eqb v y) eqn:Q; [|reflexivity]. apply edge_eqb in Q. injection Q as -> ->. rewrite LK. cbn [filter]. rewrite IR. reflexivity. }
  assert (G : (forall u v, regs (does T y e s1) u v = regs s1 u v) /\ (forall x, lookupName (p_names (does T y e s1) x) n = lookupName (p_names s1 x) n) /\ p_own (does T y e s1) = p_own s1).
  { destruct e as [m h|m]; [apply other_reg|apply mail_stays]. cbn [isReg] in IR. apply String.eqb_neq. exact IR. }
  destruct G as (G1 & G2 & G3). split; [intros; rewrite G1; apply R1|]. split; [intros; rewrite G2; reflexivity|exact G3].
Qed.
Lemma stage_step s e : (forall K' g, e = P_register K' g n -> K' = K) -> stage s -> stage (mstep s e).
Proof.
  intros AL ST. destruct e as [e|K' g m|K' a m opt data|K' a ts data|x y]; cbn [Mail.mstep].
  - revert ST. apply stage_same; reflexivity.
  - unfold registerEnd. destruct (localFed _ _ && _) eqn:C; [|exact ST]. apply andb_true_iff in C as [_ C]. set (h := (g, Z.of_nat (length (p_own s K')))). set (s1 := set_p_own _ s). destruct (String.eqb_spec m n) as [->|N].
    + assert (K' = K) by (apply (AL K' g); reflexivity). subst K'. destruct ST as [(U1 & U2 & U3)|(h' & L & _)]; [|rewrite L in C; discriminate]. right. exists h. split.
      * cbn [p_own putOn set_p_links s1 set_p_own]. rewrite Nat.eqb_refl, lookup_app, U3, lookup_one, String.eqb_refl. reflexivity.
      * right. exists K, K. split; [|split; [|split; [|split]]].
        -- rewrite regs_put. change (regs s1 K K) with (regs s K K). rewrite U1, !Nat.eqb_refl. cbn [andb app filter isReg]. rewrite String.eqb_refl. reflexivity.
        -- intros x y N. rewrite regs_put, (edge_neq _ _ _ _ N), app_nil_r. apply U1.
        -- constructor.
        -- intros x B1 B2. contradiction.
        -- intros x _. apply U2.
    + revert ST. apply stage_same.
      * intros x y. rewrite regs_put. cbn [filter isReg]. destruct (String.eqb_spec m n); [contradiction|]. edge; apply app_nil_r.
      * reflexivity.
      * cbn [p_own putOn set_p_links s1 set_p_own]. destruct (Nat.eqb K K'); [|reflexivity]. rewrite lookup_app, lookup_one. destruct (String.eqb_spec m n); [contradiction|]. destruct (lookupName (p_own s K) n); reflexivity.
  - unfold sendName. destruct (localFed _ _); [|exact ST]. revert ST. apply stage_same; try reflexivity. intros x y. rewrite regs_put. cbn [filter isReg]. edge; apply app_nil_r.
  - unfold sendTargets. destruct (localFed _ _); [|exact ST]. revert ST. apply stage_same; try reflexivity. intros x y. rewrite regs_put, regs_mails. edge; apply app_nil_r.
  - destruct (p_links s x y) as [|e r] eqn:LK; [rewrite attend_none by exact LK; exact ST|]. destruct (isReg e) eqn:IR.
    + assert (RN : regs s x y <> []) by (unfold regs; rewrite LK; cbn [filter]; rewrite IR; discriminate). destruct ST as [(U & _)|(h & L & [(D & _)|(u & v & P)])]; [contradiction RN; apply U|contradiction RN; apply D|].
      assert (UV : (x, y) = (u, v)). { destruct (edge_dec (x, y) (u, v)) as [Q|Q]; [exact Q|]. destruct P as (_ & P & _). contradiction RN. apply P, Q. } injection UV as -> ->.
      right. exists h. split.
      * rewrite (attend_some _ _ _ _ _ _ LK), (proj1 (proj2 (does_net T v e _))). exact L.
      * pose proof (advance s h u v P e r LK IR) as Q. cbv zeta in Q. destruct (t_parent T v) as [p|]; [right; exists v, p; exact Q|left; exact Q].
    + destruct (serve_other x y s e r LK IR) as (G1 & G2 & G3). revert ST. apply stage_same; [exact G1|exact G2|rewrite G3; reflexivity].
Qed.
Lemma stage_run es : alone es n K -> stage (mrun es).
Proof.
  induction es as [|e es IH] using rev_ind; intros AL; [left; split; [reflexivity|split; reflexivity]|]. rewrite mrun_snoc. apply stage_step.
  - intros K' g ->. apply (AL es K' g []). reflexivity.
  - apply IH. intros e1 K' g e2 E. apply (AL e1 K' g (e2 ++ [e])). rewrite E, <- app_assoc. reflexivity.
Qed.
(** the name of an endpoint is known to its core and to all brokers above it as soon as its announcement is nowhere under way *)
Theorem C50_name_is_known es h : alone es n K -> lookupName (p_own (mrun es) K) n = Some h -> (forall x y, ~ In (Reg n h) (p_links (mrun es) x y)) -> known T (mrun es) n h K.
Proof.
  intros AL L NI. destruct (stage_run es AL) as [(_ & _ & U)|(h' & L' & C)]; [congruence|]. assert (h' = h) by congruence. subst h'. destruct C as [(_ & D)|(u & v & P & _)]; [exact D|].
  exfalso. apply (NI u v). assert (I : In (Reg n h) (regs (mrun es) u v)) by (rewrite P; left; reflexivity). unfold regs in I. apply filter_In in I. apply I.
Qed.
(** and it gets there *)
Lemma push_on d : forall es h u v, t_depth T v = d -> fairHistory T (routesOf es) -> pending (mrun es) h u v -> exists srv, Forall isService srv /\ done (mrun (es ++ srv)) h.
Proof.
  induction d as [d IHd] using lt_wf_ind. intros es h u v DV F P.
  remember (length (p_links (mrun es) u v)) as k eqn:LK. revert es LK F P. induction k as [|k IH]; intros es LK F P; (destruct (p_links (mrun es) u v) as [|e r] eqn:Q; [destruct P as (P & _); unfold regs in P; rewrite Q in P; discriminate|]); [discriminate|].
  assert (SV : forall srv, Forall isService srv -> Forall isService (P_serve u v :: srv)) by (intros srv V; constructor; [eexists _, _; reflexivity|exact V]).
  assert (F' : fairHistory T (routesOf (es ++ [P_serve u v]))) by (rewrite routes_services; [exact F|apply SV; constructor]).
  assert (JOIN : (exists srv, Forall isService srv /\ done (mrun ((es ++ [P_serve u v]) ++ srv)) h) -> exists srv, Forall isService srv /\ done (mrun (es ++ srv)) h). { intros (srv & V & D). exists (P_serve u v :: srv). split; [apply SV, V|]. rewrite <- app_assoc in D. exact D. }
  apply JOIN. destruct (isReg e) eqn:IR.
  - pose proof (advance _ h u v P e r Q IR) as A. cbv zeta in A. change (attend T u v (mrun es)) with (mstep (mrun es) (P_serve u v)) in A. rewrite <- mrun_snoc in A. destruct (t_parent T v) as [p|] eqn:PV; [|exists []; rewrite app_nil_r; split; [constructor|exact A]].
    pose proof (parent_depth T HT _ _ PV). apply (IHd (t_depth T p) ltac:(lia) _ h v p eq_refl F' A).
  - destruct (serve_other u v _ e r Q IR) as (G1 & G2 & G3). change (attend T u v (mrun es)) with (mstep (mrun es) (P_serve u v)) in G1, G2, G3. rewrite <- mrun_snoc in G1, G2, G3.
    apply IH; [|exact F'|revert P; apply (stage_same (mrun es)); [exact G1|exact G2|rewrite G3; reflexivity]].
    rewrite mrun_snoc. cbn [Mail.mstep]. rewrite (attend_some _ _ _ _ _ _ Q), (does_links T _ _ _ _ _ HT); [unfold popped; cbn [p_links set_p_links]; rewrite !Nat.eqb_refl; cbn [andb length] in *; lia| |destruct (Nat.eq_dec u v); auto].
    intros g z. apply (hop_other T es v z g F).
Qed.
(** the announcement gets to the root: the connections can be served so that the name becomes known *)
Theorem C50_registration_completes es h : fairHistory T (routesOf es) -> alone es n K -> lookupName (p_own (mrun es) K) n = Some h -> exists services, Forall isService services /\ known T (mrun (es ++ services)) n h K.
Proof.
  intros F AL L. destruct (stage_run es AL) as [(_ & _ & U)|(h' & L' & C)]; [congruence|]. assert (h' = h) by congruence. subst h'. destruct C as [(_ & D)|(u & v & P)]; [exists []; rewrite app_nil_r; split; [constructor|exact D]|].
  destruct (push_on _ es h u v eq_refl F P) as (srv & V & _ & D). exists srv. split; [exact V|exact D].
Qed.
End Names.

(** ** Examples: "g" at the core 3 has the endpoint "e", "f" at the core 2 behind a broker sends to it *)
Section Examples.
Let pf : Z := fedShift + 1.
Let pg : Z := fedShift + 3 * priorityBlock.
Definition exA : Z * Z := (pf, 0).
Definition exE : Z * Z := (pg, 0).
Definition exHistory1 : list mevent := map P_route es0 ++ [P_register 3 pg "e"; P_register 2 pf "x"; P_serve 2 2; P_serve 3 3; P_serve 2 1; P_serve 3 0; P_serve 1 0].
Definition exHistory2 : list mevent := [P_send 2 exA "e" false [1]; P_targets 2 exA [(exE, "e"%string); (exA, "x"%string); (exE, "e"%string)] [2]; P_serve 2 2; P_serve 2 1; P_send 2 exA "e" true [3]; P_serve 1 0; P_serve 0 3; P_serve 2 2].
Definition exServices : list mevent := concat (repeat [P_serve 2 2; P_serve 2 1; P_serve 1 0; P_serve 0 3] 6).
Notation xrun := (mrun T0).
Lemma mroutes es1 : routesOf es1 = [] -> routesOf (map P_route es0 ++ es1) = es0.
Proof. intros E. rewrite routesOf_app, E, app_nil_r. reflexivity. Qed.
Lemma mnet es1 : routesOf es1 = [] -> p_net (xrun (map P_route es0 ++ es1)) = run T0 es0 (net0 T0).
Proof. intros E. rewrite net_mrun, mroutes by exact E. reflexivity. Qed.
Lemma below3 x : below T0 x 3 -> x = 3%nat \/ x = 0%nat.
Proof. intros B. inversion B as [|? p P B']; [auto|]. vm_compute in P. injection P as <-. right. inversion B' as [|? q Q _]; [auto|]. vm_compute in Q. discriminate. Qed.
Lemma ex_known : known T0 (xrun exHistory1) "e" exE 3.
Proof. intros x B. destruct (below3 x B) as [->| ->]; vm_compute; reflexivity. Qed.
Lemma in_mails m l : In (Mail m) l -> In m (mailsIn l).
Proof. intros I. unfold mailsIn. apply in_flat_map. exists (Mail m). split; [exact I|left; reflexivity]. Qed.
Lemma ex_alone es n K : forallb (fun e => match e with P_register K' _ n' => negb (String.eqb n' n) || Nat.eqb K' K | _ => true end) es = true -> alone es n K.
Proof.
  intros H e1 K' g e2 E. rewrite forallb_forall in H. specialize (H (P_register K' g n)). rewrite E in H. specialize (H ltac:(apply in_or_app; right; left; reflexivity)). cbn in H. rewrite String.eqb_refl in H. cbn in H. apply Nat.eqb_eq, H.
Qed.
Example C50_example : fairHistory T0 (routesOf (exHistory1 ++ exHistory2)) /\ registered (p_net (xrun exHistory1)) 3 "g" (fst exE) /\ registered (p_net (xrun (exHistory1 ++ exHistory2))) 2 "f" (fst exA)
  /\ known T0 (xrun exHistory1) "e" exE 3 /\ alone (exHistory1 ++ exHistory2) "e" 3
  /\ sentAfter T0 exHistory1 exHistory2 exA "e" exE = [(0%nat, [1]); (1%nat, [2]); (3%nat, [2]); (4%nat, [3])]
  /\ gotAfter T0 exHistory1 exHistory2 exA "e" exE = [(0%nat, [1])]
  /\ gotAfter T0 exHistory1 (exHistory2 ++ exServices) exA "e" exE = sentAfter T0 exHistory1 exHistory2 exA "e" exE
  /\ arrivedAfter T0 exHistory1 (exHistory2 ++ exServices) exA "e" exE
  /\ p_log (xrun (exHistory1 ++ exHistory2 ++ exServices)) = [(0%nat, Delivered exE); (2%nat, Delivered exA); (1%nat, Delivered exE); (3%nat, Delivered exE); (4%nat, Delivered exE)].
Proof.
  split; [|split; [|split; [|split; [apply ex_known|split; [apply ex_alone; reflexivity|]]]]].
  - unfold exHistory1. rewrite <- app_assoc, mroutes by reflexivity. apply es0_fair.
  - unfold exHistory1. rewrite mnet by reflexivity. apply ex_in.
  - unfold exHistory1. rewrite <- app_assoc, mnet by reflexivity. apply ex_pub.
  - split; [vm_compute; reflexivity|]. split; [vm_compute; reflexivity|]. split; [vm_compute; reflexivity|]. split; [|vm_compute; reflexivity].
    intros x y m I. exfalso. assert (E : forall x y, p_links (xrun (exHistory1 ++ exHistory2 ++ exServices)) x y = []).
    { clear. intros x y. destruct x as [|[|[|[|x]]]], y as [|[|[|[|y]]]]; vm_compute; reflexivity. }
    rewrite E in I. destruct I.
Qed.
Definition exUnknown : list mevent := map P_route es0 ++ [P_send 2 exA "nobody" false [1]; P_send 2 exA "nobody" true [2]] ++ exServices.
Example C50_unknown_example : never "nobody" exUnknown /\ p_log (xrun exUnknown) = [(0%nat, Reported); (1%nat, Dropped)].
Proof.
  split; [|vm_compute; reflexivity]. intros K g I. unfold exUnknown in I. apply in_app_or in I as [I|I]; [apply in_map_iff in I as (e & Q & _); discriminate|]. cbn in I. repeat (destruct I as [I|I]; [discriminate|]). destruct I.
Qed.
(** ** What fails *)
(** "once registerEndpoint has returned, a message to the name arrives": a message of another core can overtake the announcement *)
Theorem C50_message_before_the_announcement_refuted : exists es, alone es "e" 3 /\ lookupName (p_own (xrun es) 3) "e" = Some exE
  /\ map k_name (mails T0 es) = ["e"%string] /\ (forall x y m, ~ In (Mail m) (p_links (xrun es) x y)) /\ p_box (xrun es) (fst exE) = [] /\ p_log (xrun es) = [(0%nat, Reported)].
Proof.
  exists (map P_route es0 ++ [P_register 3 pg "e"; P_send 2 exA "e" false [1]; P_serve 2 2; P_serve 2 1; P_serve 1 0]). split; [apply ex_alone; reflexivity|]. split; [vm_compute; reflexivity|]. split; [vm_compute; reflexivity|]. split; [|split; vm_compute; reflexivity].
  intros x y m I. apply in_mails in I. revert I. match goal with |- In m (mailsIn ?l) -> False => assert (E : mailsIn l = []) end; [|rewrite E; intros []].
  destruct x as [|[|[|[|x]]]], y as [|[|[|[|y]]]]; vm_compute; reflexivity.
Qed.
(** "a name leads everyone to the same endpoint": where a second core has registered the name too, its own federates and those below
    the brokers in between are led to the second, whose registration the common broker has refused *)
Theorem C50_one_endpoint_for_a_name_refuted : exists es h1 h2, h1 <> h2 /\ (forall x y n h, ~ In (Reg n h) (p_links (xrun es) x y)) /\ lookupName (p_names (xrun es) 0) "e" = Some h1
  /\ map (fun m => (k_src m, k_name m, k_dest m)) (mails T0 es) = [((pf, 7), "e"%string, None); ((pg, 7), "e"%string, None)] /\ p_log (xrun es) = [(0%nat, Delivered h2); (1%nat, Delivered h1)].
Proof.
  set (es := map P_route es0 ++ [P_register 3 pg "e"; P_serve 3 3; P_serve 3 0; P_register 2 pf "e"; P_serve 2 2; P_serve 2 1; P_serve 1 0; P_send 2 (pf, 7) "e" false [1]; P_serve 2 2; P_send 3 (pg, 7) "e" false [2]; P_serve 3 3]).
  exists es, (pg, 0), (pf, 0). split; [discriminate|]. split; [|split; [vm_compute; reflexivity|split; vm_compute; reflexivity]].
  intros x y n h I. assert (E : p_links (xrun es) x y = []) by (clear I; destruct x as [|[|[|[|x]]]], y as [|[|[|[|y]]]]; vm_compute; reflexivity). rewrite E in I. destruct I.
Qed.
End Examples.
