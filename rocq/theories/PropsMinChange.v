(** * C54: the minimum change of publications and inputs *)
From Coq Require Import ZArith Bool List Lia ZifyBool.
From Verif Require Import MinChange.
Import ListNotations.
Open Scope Z_scope.

(** ** the specification *)
(** two numbers differ by at most delta *)
Definition closeD (delta : Z) (a b : dbl) : Prop := (exists x y, a = Fin x /\ b = Fin y /\ Z.abs (x - y) <= delta) \/ (exists s, a = Inf s /\ b = Inf s).
(** two values of the same type do; a named point after a plain number is compared with that number *)
Definition closeTo (delta : Z) (a b : defV) : Prop :=
  match a, b with
  | VD x, VD y => closeD delta x y
  | VI x, VI y => Z.abs (x - y) * one <= delta
  | VS x, VS y => x = y
  | VC x x', VC y y' => closeD delta x y /\ closeD delta x' y'
  | VV x, VV y => Forall2 (closeD delta) x y
  | VN n x, VN m y => n = m /\ closeD delta x y
  | VD x, VN _ y => closeD delta x y
  | _, _ => False
  end.
Definition number (v : defV) : Prop :=
  match v with VD d | VN _ d => d <> NaN | VC a b => a <> NaN /\ b <> NaN | VV l => Forall (fun d => d <> NaN) l | _ => True end.
(** what a publication has sent *)
Definition sent (cs : list pcall) : list defV := snd (pcalls cs).
(** what the receivers see: the last value sent, and 0.0 before *)
Definition seen (cs : list pcall) : defV := last (sent cs) (VD (Fin 0)).
(** the minimum change in force *)
Definition threshold (d0 : Z) (cs : list pcall) : Z := fold_left (fun d c => match c with P_minimum d' => d' | _ => d end) cs d0.
(** publishing numbers, and setting the minimum change *)
Definition plain (c : pcall) : Prop := match c with P_publish v => number v | P_minimum d => 0 <= d | _ => False end.

(** ** the comparison *)
Lemma one_pos : 0 < one. Proof. unfold one. apply Z.pow_pos_nonneg; lia. Qed.
Lemma far_close delta a b : a <> NaN -> b <> NaN -> (far a b delta = false <-> closeD delta a b).
Proof.
  intros A B. unfold far, closeD. destruct a as [x|s|], b as [y|s'|]; try contradiction; split; intros H; try discriminate.
  - left. exists x, y. repeat split. lia.
  - destruct H as [(x' & y' & E1 & E2 & L)|(s & E & _)]; [|discriminate]. injection E1 as <-. injection E2 as <-. lia.
  - destruct H as [(x' & y' & E1 & E2 & L)|(s & E & E')]; discriminate.
  - destruct H as [(x' & y' & E1 & E2 & L)|(s1 & E & E')]; discriminate.
  - right. exists s. split; [reflexivity|]. apply negb_false_iff, eqb_prop in H. congruence.
  - destruct H as [(x' & y' & E1 & E2 & L)|(s1 & E & E')]; [discriminate|]. injection E as ->. injection E' as ->. rewrite eqb_reflx. reflexivity.
Qed.
Lemma f2_length {A B} (R : A -> B -> Prop) a b : Forall2 R a b -> length a = length b.
Proof. induction 1; cbn; congruence. Qed.
Lemma same_eq a b : same a b = true <-> a = b.
Proof. unfold same. destruct (list_eq_dec Z.eq_dec a b); split; congruence. Qed.
Lemma farAny_close delta a : forall b, length b = length a -> Forall (fun d => d <> NaN) a -> Forall (fun d => d <> NaN) b -> (farAny a b delta = false <-> Forall2 (closeD delta) a b).
Proof.
  induction a as [|x a IH]; intros [|y b] L A B; try discriminate; [split; constructor|]. cbn. inversion A as [|? ? A1 A2]. inversion B as [|? ? B1 B2]. subst. injection L as L. rewrite orb_false_iff, (far_close delta x y A1 B1), (IH b L A2 B2). split.
  - intros [H1 H2]. constructor; assumption.
  - intros H. inversion H. auto.
Qed.
Lemma changed_close delta p v : 0 <= delta -> number p -> number v -> (changeDetected p v delta = false <-> closeTo delta p v).
Proof.
  intros D P V. destruct v as [d|z|s|re im|l|n d], p as [d'|z'|s'|re' im'|l'|n' d']; cbn [changeDetected closeTo number] in *; try (split; [discriminate|contradiction]).
  - apply far_close; assumption.
  - pose proof one_pos. rewrite Z.ltb_ge, Z.quot_div_nonneg by lia. split; intros H1.
    + pose proof (Z.mul_div_le delta one ltac:(lia)). nia.
    + apply Z.div_le_lower_bound; lia.
  - rewrite negb_false_iff, same_eq. split; congruence.
  - destruct P as [P1 P2], V as [V1 V2]. rewrite orb_false_iff, (far_close delta re' re P1 V1), (far_close delta im' im P2 V2). reflexivity.
  - destruct (Nat.eqb_spec (length l) (length l')) as [E|E]; [apply farAny_close; assumption|]. split; [discriminate|]. intros H. apply f2_length in H. congruence.
  - assert (NN : isNaN d = false) by (destruct d; [reflexivity|reflexivity|contradiction]). rewrite NN. apply far_close; assumption.
  - assert (NN : isNaN d = false) by (destruct d; [reflexivity|reflexivity|contradiction]). rewrite NN. cbn [negb]. rewrite andb_true_r. destruct (same n' n) eqn:E.
    + apply same_eq in E. rewrite (far_close delta d' d P V). tauto.
    + split; [discriminate|]. intros [H _]. apply same_eq in H. congruence.
Qed.
Lemma closeD_refl delta a : 0 <= delta -> a <> NaN -> closeD delta a a.
Proof. intros D A. destruct a as [x|s|]; [left; exists x, x; repeat split; lia|right; exists s; auto|contradiction]. Qed.
Lemma close_refl delta v : 0 <= delta -> number v -> closeTo delta v v.
Proof.
  intros D V. destruct v as [d|z|s|re im|l|n d]; cbn [closeTo number] in *.
  - apply closeD_refl; assumption.
  - pose proof one_pos. replace (z - z) with 0 by lia. cbn. lia.
  - reflexivity.
  - destruct V. split; apply closeD_refl; assumption.
  - induction V as [|x l X V IH]; constructor; [apply closeD_refl; assumption|exact IH].
  - split; [reflexivity|apply closeD_refl; assumption].
Qed.

(** ** publications *)
Lemma pcalls_snoc cs c : pcalls (cs ++ [c]) = (fst (pcallStep (fst (pcalls cs)) c), sent cs ++ snd (pcallStep (fst (pcalls cs)) c)).
Proof. unfold sent, pcalls. rewrite fold_left_app. cbn [fold_left]. destruct (fold_left _ cs _) as [p out]. cbn [fst snd]. destruct (pcallStep p c). reflexivity. Qed.
Lemma sent_snoc cs c : sent (cs ++ [c]) = sent cs ++ snd (pcallStep (fst (pcalls cs)) c). Proof. unfold sent at 1. rewrite pcalls_snoc. reflexivity. Qed.
Lemma last_snoc {A} (l : list A) x d : last (l ++ [x]) d = x.
Proof. induction l as [|y l IH]; [reflexivity|]. cbn [app last]. destruct (l ++ [x]) eqn:E; [destruct l; discriminate|]. rewrite <- E in *. exact IH. Qed.
Lemma plain_inv d0 cs : 0 <= d0 -> Forall plain cs -> let p := fst (pcalls (P_minimum d0 :: cs)) in
  u_detect p = true /\ u_delta p = threshold d0 cs /\ 0 <= threshold d0 cs /\ u_prev p = seen (P_minimum d0 :: cs) /\ number (u_prev p).
Proof.
  intros D. pose proof one_pos as OP. induction cs as [|c cs IH] using rev_ind; intros F; cbv zeta.
  - unfold pcalls. cbn [fold_left pcallStep fst]. unfold pubMinimumChange, publ0, seen, sent, pcalls, threshold. cbn [u_delta u_detect u_prev set_u_detect set_u_delta fold_left pcallStep fst snd app last]. replace (- one <? 0) with true by lia. replace (d0 <? 0) with false by lia. cbn. repeat split; [exact D|discriminate].
  - apply Forall_app in F as [F FC]. inversion FC as [|? ? PC _]. subst. specialize (IH F). cbv zeta in IH. destruct IH as (A & B & C & E & G). rewrite app_comm_cons. unfold seen. rewrite sent_snoc, pcalls_snoc. cbn [fst]. fold (seen (P_minimum d0 :: cs)) in *. set (p := fst (pcalls (P_minimum d0 :: cs))) in *.
    unfold threshold. rewrite fold_left_app. fold (threshold d0 cs). cbn [fold_left]. destruct c as [v|own v w|d|b]; cbn [plain] in PC; try contradiction; cbn [pcallStep fst snd].
    + unfold publish. rewrite A. destruct (changeDetected (u_prev p) v (u_delta p)); cbn [fst snd u_detect u_delta u_prev set_u_prev].
      * rewrite last_snoc. auto.
      * rewrite app_nil_r. auto.
    + rewrite app_nil_r. unfold pubMinimumChange. rewrite B. replace (threshold d0 cs <? 0) with false by lia. replace (d <? 0) with false by lia. cbn [u_detect u_delta u_prev set_u_delta]. auto.
Qed.
(** with a minimum change in force from the beginning, a value is sent exactly when it differs by more than that from the
    last one which was sent (0.0 at the start) *)
Theorem C54_sent_iff_changed d0 cs v : 0 <= d0 -> Forall plain cs -> number v ->
  (closeTo (threshold d0 cs) (seen (P_minimum d0 :: cs)) v -> sent (P_minimum d0 :: cs ++ [P_publish v]) = sent (P_minimum d0 :: cs))
  /\ (~ closeTo (threshold d0 cs) (seen (P_minimum d0 :: cs)) v -> sent (P_minimum d0 :: cs ++ [P_publish v]) = sent (P_minimum d0 :: cs) ++ [v]).
Proof.
  intros D F V. destruct (plain_inv d0 cs D F) as (A & B & C & E & G). rewrite app_comm_cons, sent_snoc. cbn [pcallStep]. unfold publish. rewrite A, B. rewrite <- E. pose proof (changed_close (threshold d0 cs) _ v C G V) as CC. destruct (changeDetected _ v _); cbn [snd]; split; intros H.
  - apply CC in H. discriminate.
  - reflexivity.
  - apply app_nil_r.
  - destruct H. apply CC. reflexivity.
Qed.
(** so what the receivers see is never further from the published value than the minimum change *)
Theorem C54_receivers_are_close d0 cs v : 0 <= d0 -> Forall plain cs -> number v -> closeTo (threshold d0 cs) (seen (P_minimum d0 :: cs ++ [P_publish v])) v.
Proof.
  intros D F V. destruct (plain_inv d0 cs D F) as (A & B & C & E & G). destruct (C54_sent_iff_changed d0 cs v D F V) as [S1 S2]. pose proof (changed_close (threshold d0 cs) _ v C G V) as CC. rewrite E in CC. unfold seen. destruct (changeDetected (seen (P_minimum d0 :: cs)) v (threshold d0 cs)) eqn:Q.
  - rewrite S2, last_snoc; [apply close_refl; assumption|]. intros H. apply CC in H. discriminate.
  - assert (H : closeTo (threshold d0 cs) (seen (P_minimum d0 :: cs)) v) by (apply CC; reflexivity). rewrite S1 by exact H. exact H.
Qed.
(** without a minimum change every value is sent, also one which is not a number *)
Theorem C54_everything_is_sent vs : sent (map P_publish vs) = vs.
Proof.
  assert (G : forall vs, fst (pcalls (map P_publish vs)) = publ0 /\ sent (map P_publish vs) = vs).
  { clear. induction vs as [|v vs [A B]] using rev_ind; [split; reflexivity|]. rewrite map_app. cbn [map]. rewrite sent_snoc, pcalls_snoc. rewrite A, B. split; reflexivity. }
  apply G.
Qed.

(** ** inputs *)
(** what an input should answer: it shows a value, and a flag says whether the shown value is newer than the last one read.
    A new value is shown unless the minimum change [Some delta] is in force and it is within delta of the shown one *)
Definition within (delta : Z) (a b : dbl) : bool := match a, b with Fin x, Fin y => Z.abs (x - y) <=? delta | Inf s, Inf s' => Bool.eqb s s' | _, _ => false end.
Definition ignored (minimum : option Z) (a b : dbl) : bool := match minimum with Some delta => within delta a b | None => false end.
Fixpoint wanted (minimum : option Z) (shown : dbl) (flag : bool) (cs : list icall) : list answer :=
  match cs with
  | [] => []
  | N_new d :: r => if ignored minimum shown d then wanted minimum shown flag r else wanted minimum d true r
  | N_get _ :: r => Value (VD shown) :: wanted minimum shown false r
  | N_isUpdated :: r => Flag flag :: wanted minimum shown flag r
  | _ :: r => wanted minimum shown flag r
  end.
Definition usual (c : icall) : Prop := match c with N_new d => d <> NaN | N_get asInt => asInt = false | N_isUpdated => True | _ => False end.
Definition start (minimum : option Z) : inp := match minimum with Some d => inpMinimumChange d inp0 | None => inp0 end.
Definition sim (minimum : option Z) (shown : dbl) (flag : bool) (i : inp) : Prop :=
  shown <> NaN /\ n_has i = flag /\ match minimum with
  | Some d => n_detect i = true /\ n_delta i = d /\ n_fedHas i = false /\ n_last i = VD shown
  | None => n_detect i = false /\ n_fedHas i = flag /\ if flag then n_data i = Some shown else n_last i = VD shown
  end.
Lemma extract_same d : extract false (VD d) = VD d. Proof. destruct d; reflexivity. Qed.
Lemma within_far delta a b : a <> NaN -> b <> NaN -> far a b delta = negb (within delta a b).
Proof. intros A B. destruct a as [x|s|], b as [y|s'|]; try contradiction; cbn; try reflexivity. lia. Qed.
Lemma icalls_from i cs : forall out, fold_left (fun (a : inp * list answer) c => let '(i, out) := a in let (i', o) := icallStep i c in (i', out ++ o)) cs (i, out) = (fst (icalls i cs), out ++ snd (icalls i cs)).
Proof.
  unfold icalls. revert i. induction cs as [|c cs IH]; intros i out; [cbn; rewrite app_nil_r; reflexivity|]. cbn [fold_left]. destruct (icallStep i c) as [i' o]. rewrite (IH i' (out ++ o)), (IH i' ([] ++ o)). cbn [fst snd app]. rewrite app_assoc. reflexivity.
Qed.
Lemma icalls_cons i c cs : snd (icalls i (c :: cs)) = snd (icallStep i c) ++ snd (icalls (fst (icallStep i c)) cs).
Proof. unfold icalls at 1. cbn [fold_left]. destruct (icallStep i c) as [i' o]. rewrite icalls_from. reflexivity. Qed.
Lemma sim_run minimum cs : (match minimum with Some d => 0 <= d | None => True end) -> Forall usual cs -> forall shown flag i, sim minimum shown flag i -> snd (icalls i cs) = wanted minimum shown flag cs.
Proof.
  intros M F. induction F as [|c cs U F IH]; intros shown flag i S; [reflexivity|]. rewrite icalls_cons. destruct S as (SN & H & S). destruct c as [d|k| | | |d|b]; cbn [usual] in U; try contradiction; cbn [wanted icallStep].
  - cbn [fst snd app]. destruct minimum as [delta|]; cbn [ignored].
    + destruct S as (S1 & S2 & S3 & S4). unfold newValue, checkUpdate. cbn [n_detect n_data n_fedHas n_last n_delta set_n_fedHas set_n_data orb]. rewrite S1, S4. cbn [isInt]. rewrite extract_same. cbn [changeDetected]. rewrite S2, (within_far delta shown d SN U). destruct (within delta shown d); cbn [negb]; apply IH.
      * repeat split; assumption.
      * repeat split; assumption.
    + destruct S as (S1 & S2 & S3). unfold newValue, checkUpdate. cbn [n_detect n_data n_fedHas n_last n_delta set_n_fedHas set_n_data]. rewrite S1. apply IH. split; [exact U|]. cbn. rewrite !orb_true_r. auto.
  - subst k. destruct minimum as [delta|].
    + destruct S as (S1 & S2 & S3 & S4). unfold getValue. rewrite S1, S3. cbn [negb]. rewrite andb_false_r. cbn [orb fst snd app]. rewrite S4, extract_same. f_equal. apply IH. repeat split; assumption.
    + destruct S as (S1 & S2 & S3). unfold getValue. rewrite S1, S2, H. destruct flag; cbn [orb andb negb].
      * rewrite S3. cbn [n_detect set_n_fedHas]. rewrite S1, extract_same. cbn [fst snd app]. f_equal. apply IH. split; [exact SN|]. cbn. auto.
      * cbn [fst snd app]. rewrite S3, extract_same. f_equal. apply IH. split; [exact SN|]. cbn. auto.
  - destruct minimum as [delta|].
    + destruct S as (S1 & S2 & S3 & S4). unfold isUpdated. rewrite H. destruct flag; cbn [fst snd app].
      * f_equal. apply IH. repeat split; assumption.
      * unfold checkUpdate. rewrite S1, S3. cbn [orb fst snd app]. rewrite H. f_equal. apply IH. repeat split; assumption.
    + destruct S as (S1 & S2 & S3). unfold isUpdated. rewrite H. destruct flag; cbn [fst snd app].
      * f_equal. apply IH. split; [exact SN|]. auto.
      * unfold checkUpdate. rewrite S1, S2, H. cbn. f_equal. apply IH. split; [exact SN|]. cbn. auto.
Qed.
Lemma start_sim minimum : (match minimum with Some d => 0 <= d | None => True end) -> sim minimum invalidDouble false (start minimum).
Proof.
  intros M. pose proof one_pos. split; [discriminate|]. destruct minimum as [d|]; cbn [start]; [|repeat split]. unfold inpMinimumChange, inp0. cbn [n_delta]. replace (- one <? 0) with true by lia. replace (d <? 0) with false by lia. repeat split.
Qed.
(** an input of doubles answers as it should, for every history of new values, reads and isUpdated, with or without a minimum
    change set at the start *)
Theorem C54_input_answers minimum cs : (match minimum with Some d => 0 <= d | None => True end) -> Forall usual cs -> snd (icalls (start minimum) cs) = wanted minimum invalidDouble false cs.
Proof. intros M F. apply sim_run; [exact M|exact F|apply start_sim, M]. Qed.
(** so what is read is the newest value, or within the minimum change of it *)
Lemma wanted_app minimum a : forall shown flag b, exists shown' flag', wanted minimum shown flag (a ++ b) = wanted minimum shown flag a ++ wanted minimum shown' flag' b.
Proof.
  induction a as [|c a IH]; intros shown flag b; [exists shown, flag; reflexivity|]. destruct c as [d|k| | | |d|x]; cbn [app wanted]; try apply IH.
  - destruct (ignored minimum shown d); apply IH.
  - destruct (IH shown false b) as (s' & f' & ->). exists s', f'. reflexivity.
  - destruct (IH shown flag b) as (s' & f' & ->). exists s', f'. reflexivity.
Qed.
Lemma wanted_quiet minimum cs : (forall d, ~ In (N_new d) cs) -> forall shown flag, wanted minimum shown flag (cs ++ [N_get false]) = wanted minimum shown flag cs ++ [Value (VD shown)].
Proof.
  induction cs as [|c cs IH]; intros N shown flag; [reflexivity|]. assert (N' : forall d, ~ In (N_new d) cs) by (intros d I; apply (N d); right; exact I). destruct c as [d|k| | | |d|x]; cbn [app wanted]; rewrite ?(IH N'); try reflexivity. destruct (N d). left. reflexivity.
Qed.
Theorem C54_read_value_is_close minimum cs d cs' : (match minimum with Some d => 0 <= d | None => True end) -> Forall usual cs -> d <> NaN -> Forall usual cs' -> (forall d', ~ In (N_new d') cs') ->
  exists answers w, snd (icalls (start minimum) (cs ++ N_new d :: cs' ++ [N_get false])) = answers ++ [Value (VD w)] /\ match minimum with Some delta => closeD delta w d | None => w = d end.
Proof.
  intros M F U F' N. rewrite C54_input_answers; [|exact M|apply Forall_app; split; [exact F|constructor; [exact U|apply Forall_app; split; [exact F'|repeat constructor]]]].
  destruct (wanted_app minimum cs invalidDouble false (N_new d :: cs' ++ [N_get false])) as (shown & flag & ->). cbn [wanted]. destruct (ignored minimum shown d) eqn:I; rewrite (wanted_quiet minimum cs' N), app_assoc; eexists; eexists; (split; [reflexivity|]).
  - destruct minimum as [delta|]; [|discriminate]. cbn in I. destruct shown as [x|s|], d as [y|s'|]; try discriminate; cbn in I; [left; exists x, y; repeat split; lia|right; exists s; split; [reflexivity|]; apply eqb_prop in I; congruence].
  - destruct minimum as [delta|]; [|reflexivity]. apply closeD_refl; assumption.
Qed.

(** ** Examples *)
Example C54_example_publish : Forall plain [P_publish (VD (Fin 25)); P_publish (VD (Fin 30)); P_minimum 4; P_publish (VD (Fin 30)); P_publish (VS [65]); P_publish (VS [65]); P_publish (VI 3)]
  /\ sent [P_minimum 10; P_publish (VD (Fin 25)); P_publish (VD (Fin 30)); P_minimum 4; P_publish (VD (Fin 30)); P_publish (VS [65]); P_publish (VS [65]); P_publish (VI 3)] = [VD (Fin 25); VD (Fin 30); VS [65]; VI 3].
Proof. split; [repeat constructor; try discriminate; cbn; lia|vm_compute; reflexivity]. Qed.
Example C54_example_input : let cs := [N_new (Fin 25); N_isUpdated; N_get false; N_isUpdated; N_new (Fin 30); N_isUpdated; N_get false; N_new (Fin 36); N_get false] in Forall usual cs
  /\ snd (icalls (start (Some 10)) cs) = [Flag true; Value (VD (Fin 25)); Flag false; Flag false; Value (VD (Fin 25)); Value (VD (Fin 36))]
  /\ snd (icalls (start None) cs) = [Flag true; Value (VD (Fin 25)); Flag false; Flag true; Value (VD (Fin 30)); Value (VD (Fin 36))].
Proof. split; [repeat constructor; discriminate|split; vm_compute; reflexivity]. Qed.

(** ** what does not hold *)
(** the first value is not always sent: prevValue is 0.0 before anything was published *)
Theorem C54_first_value_refuted : ~ (forall d v, 0 <= d -> number v -> sent [P_minimum d; P_publish v] = [v]).
Proof. intros H. specialize (H 10 (VD (Fin 5)) ltac:(lia) ltac:(discriminate)). vm_compute in H. discriminate. Qed.
(** values published before the minimum change is set are forgotten (Publications.cpp:73-76 sets prevValue only with change
    detection): afterwards the receivers may be arbitrarily far off *)
Theorem C54_set_later_refuted : ~ (forall vs d v, Forall number vs -> vs <> [] -> 0 <= d -> number v -> closeTo d (seen (map P_publish vs ++ [P_minimum d; P_publish v])) v).
Proof.
  intros H. specialize (H [VD (Fin 100)] 10 (VD (Fin 3)) ltac:(repeat constructor; discriminate) ltac:(discriminate) ltac:(lia) ltac:(discriminate)). replace (seen _) with (VD (Fin 100)) in H by (vm_compute; reflexivity). destruct H as [(x & y & E1 & E2 & L)|(s & E & _)]; [|discriminate]. injection E1 as <-. injection E2 as <-. lia.
Qed.
(** a value which is not a number is not sent after a number, and nothing is sent after one that got through *)
Theorem C54_not_a_number_refuted : ~ (forall d vs v, 0 <= d -> sent (P_minimum d :: map P_publish (vs ++ [v])) = sent (P_minimum d :: map P_publish vs) -> closeTo d (seen (P_minimum d :: map P_publish vs)) v)
  /\ sent [P_minimum 10; P_publish (VS [65]); P_publish (VD NaN); P_publish (VD (Fin 100)); P_publish (VD (Fin 1000))] = [VS [65]; VD NaN].
Proof.
  split; [|vm_compute; reflexivity]. intros H. specialize (H 10 [VD (Fin 100)] (VD NaN) ltac:(lia) ltac:(vm_compute; reflexivity)). replace (seen _) with (VD (Fin 100)) in H by (vm_compute; reflexivity). destruct H as [(x & y & E1 & E2 & L)|(s & E & _)]; discriminate.
Qed.
(** publishing with the name of the publication's own unit sends the value twice (Publications.cpp:302-306 has no return) *)
Theorem C54_units_sent_once_refuted : ~ (forall own d, d <> NaN -> sent [P_units own (VD d) (VD d)] = [VD d]).
Proof. intros H. specialize (H true (Fin 5) ltac:(discriminate)). vm_compute in H. discriminate. Qed.
(** clearUpdate, "clear the isUpdated flag" (Inputs.hpp:202), also makes later reads miss the value; so does getBytes *)
Theorem C54_clear_only_clears_refuted : ~ (forall d, d <> NaN -> snd (icalls inp0 [N_new d; N_clear; N_get false]) = [Value (VD d)])
  /\ ~ (forall d, d <> NaN -> snd (icalls inp0 [N_new d; N_bytes; N_get false]) = [Value (VD d)]).
Proof. split; intros H; specialize (H (Fin 5) ltac:(discriminate)); vm_compute in H; discriminate. Qed.
(** reading as an integer changes what is read as a double afterwards *)
Theorem C54_reads_do_not_change_refuted : ~ (forall d, d <> NaN -> exists a, snd (icalls inp0 [N_new d; N_get true; N_get false]) = [a; Value (VD d)]).
Proof. intros H. destruct (H (Fin (2 ^ 1073)) ltac:(discriminate)) as [a E]. vm_compute in E. discriminate. Qed.
