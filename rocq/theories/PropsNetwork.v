(** * Property C10: no event is delivered into a federate's past *)
From Coq Require Import ZArith Bool List Lia ZifyBool.
From Verif Require Import HTime Action TimeDep TimeDepProofs TimeCoord TimeCoordProofs TimeProc TimeProcProofs
  TimeInitProofs MinTimeProofs TimeInv TimeAnswer TimeGrid PropsTime1 TimeTable TimeNotice NoticeStep Examples1 PropsTime2 PropsTime3 Promise Mine Network.
Import ListNotations.
Open Scope Z_scope.

(** the federate at which an event of the federation happens, and what happens there *)
Definition eventAt (n : net) (ne : nevent) : option (Z * event) :=
  match ne with
  | N_deliver k => option_map (fun m => (m_dest_id m, Ev_msg m)) (nth_error (n_log n) k)
  | N_local j e => Some (j, e)
  end.
Lemma event_claims n ne j e f : causal n -> allowed n ne -> eventAt n ne = Some (j, e) -> n_fed n j = Some f ->
  plain f e /\ (dead (f_st (fst (step f e))) = false -> evClaims (keptBy n) j e).
Proof.
  intros C A E J.
  assert (PL : plain f e).
  { destruct ne as [k|j' e']; cbn in E, A.
    - destruct (nth_error (n_log n) k) as [m|]; [|discriminate E]. injection E as <- <-. apply (A m f eq_refl J).
    - injection E as -> ->. apply A. exact J. }
  split; [exact PL|]. intros D cmd ->. split.
  { intros X. pose proof (globalError_dead f cmd PL X). congruence. }
  intros NE x X. destruct ne as [k|j' e']; cbn in E, A.
  - destruct (nth_error (n_log n) k) as [m|] eqn:M; [|discriminate E]. injection E as <- <-.
    eapply ca_log; [exact C|eapply nth_error_In; exact M|exact X].
  - injection E as -> ->. destruct A as [_ A]. intros g G. apply dead_keeps. eapply A; eauto. congruence.
Qed.

(** the decision behind a grant is taken on a table reached from the one before the event *)
Lemma grant_from f e r t : wf_event e -> f_st f = EXECUTING -> e_ret (snd (step f e)) = Some (r, t) -> isGrant r ->
  (forall m, e = Ev_msg m -> m_action m <> CMD_FORCE_TIME_GRANT) ->
  exists c0 trig out m, aprims e (f_tc f) c0 /\ checkTimeGrant c0 trig = (f_tc (fst (step f e)), out, m)
    /\ of_mpr m = r /\ t = c_granted (f_tc (fst (step f e))) /\ f_st (fst (step f e)) = EXECUTING /\ (c_granted c0 = c_granted (f_tc f)).
Proof.
  intros W ST ER IG NF.
  assert (CASE : (exists t it nv nm, e = Ev_request t it nv nm) \/ (forall t it nv nm, e <> Ev_request t it nv nm)).
  { destruct e; try (right; intros; discriminate). left. repeat eexists. }
  destruct CASE as [(tq&it&nv&nm&->)|NR].
  - pose proof (step_request f tq it nv nm ST) as K. cbn zeta in K. destruct K as (out&m&K1&K2&_&K4&K5).
    exists (fst (timeRequest (f_tc f) tq (effIter f it) nv nm)), invalidId, out, m.
    split; [apply as_one; eapply ap_request; reflexivity|]. split; [exact K1|].
    assert (GG : c_granted (fst (timeRequest (f_tc f) tq (effIter f it) nv nm)) = c_granted (f_tc f)).
    { pose proof (timeRequest_core (f_tc f) tq (effIter f it) nv nm) as TC. cbn zeta in TC. core_inv TC. assumption. }
    rewrite ER in K5. destruct IG as [-> | ->]; destruct m; try discriminate K5; injection K5 as ->; (split; [reflexivity|split; [reflexivity|split; [exact K2|exact GG]]]).
  - pose proof (step_started f e ltac:(rewrite ST; reflexivity) (fun _ => NR)) as [S _]. rewrite ER in S.
    remember (fst (step f e)) as f' eqn:EF. remember (Some (r, t)) as x eqn:EX.
    destruct S as [A1 A2 A3 A4 A5|A1 A2 A3|tt A1 A2 A3|cmd A1 A2 A3 A4 A5 A6 A7|c0 trig out m A1 A2 A3 A4 A5 A6 A7]; try discriminate EX.
    + injection EX as <- <-. destruct IG; discriminate.
    + injection EX as <- <-. destruct IG; discriminate.
    + destruct (NF cmd A1 A2).
    + injection EX as <- <-.
      exists c0, trig, out, m. split; [apply prims_aprims; exact A1|]. split; [exact A5|].
      split; [reflexivity|]. split; [destruct m; try reflexivity; destruct IG; discriminate|]. split; [exact A3|].
      destruct (prims_ok e _ _ W A1) as [(_&E&_) _]. exact E.
Qed.
Lemma isDependency_getDep l g : isDependency l g = true -> exists d, getDep l g = Some d /\ dependency d = true.
Proof.
  unfold isDependency, getDep. destruct (snd (lower_bound l g)) as [|d b]; [discriminate|].
  destruct (fedID d =? g); [eauto|discriminate].
Qed.
Lemma getDep_in l g d : getDep l g = Some d -> In d l /\ fedID d = g.
Proof.
  unfold getDep. destruct (lower_bound l g) as [x y] eqn:E. cbn [snd]. destruct y as [|z y]; [discriminate|].
  destruct (Z.eqb_spec (fedID z) g) as [e|]; [|discriminate]. intros H. injection H as <-. split; [|assumption].
  assert (H : l = x ++ z :: y). { clear e. revert x E. induction l as [|w l IH]; intros; cbn in E; [discriminate|].
    destruct (fedID w <? g); [|injection E as <- <- <-; reflexivity]. destruct (lower_bound l g) as [x' y'] eqn:E'. injection E as <- ->.
    cbn. f_equal. eapply IH; reflexivity. }
  rewrite H. apply in_or_app. right. left. reflexivity.
Qed.
Lemma grantTab_back id l l' g d' : tsorted l -> g <> id -> grantTab id l l' -> getDep l' g = Some d' ->
  exists d, getDep l g = Some d /\ next d' = next d /\ dependency d' = dependency d.
Proof.
  intros S N [[->|(a&_&->)]|[t ->]] G.
  - eauto.
  - rewrite msgTable_getDep in G by exact S. cbn [m_source_id set_m_dest_id newMsg] in G.
    destruct (Z.eqb_spec g id); [contradiction|]. eauto.
  - change (resetIteratingTimeRequests t l) with (map (f_iterTime t) l) in G. rewrite map_getDep in G; [|apply f_iterTime_id|exact S].
    destruct (getDep l g) as [d|]; [|discriminate G]. injection G as <-. exists d. split; [reflexivity|].
    unfold f_iterTime. destruct (_ && _); split; reflexivity.
Qed.

(** ** C10
    Start with any number of federates, connected in any way.  Commands between them may arrive late, in any
    order, several times or never; applications may request what they like; data arrives as it likes.  When
    federate [j] is granted a time [t] later than its current one, then whatever happens afterwards, data which a
    federate [i] that [j] depends on sends is stamped at or after [t] (less the input delay of [j]).

    Missing for the full property: federates run with the restrictive time policy; options stay fixed after
    creation; no forced grants, no federates joining dynamically.  With the default policy the property is
    false (C10_default_policy_refuted). *)
Definition canSend (f : fed) : Prop := f_gm f = true /\ (f_st f = INITIALIZING \/ f_st f = EXECUTING).
Theorem C10_no_data_in_the_past_partial :
  forall n0 es n ne j e f r t i es2 n2 g,
  fresh n0 -> nrun n0 es n ->
  allowed n ne -> eventAt n ne = Some (j, e) -> n_fed n j = Some f -> f_st f = EXECUTING ->
  e_ret (snd (step f e)) = Some (r, t) -> isGrant r -> c_granted (f_tc f) < t ->
  let f' := fst (step f e) in
  let cfg := c_opts (f_tc f') in
  isDependency (c_deps (f_tc f')) i = true -> i <> j -> isValidId i = true ->
  o_inputDelay cfg < t -> farFromEnd cfg (t - o_inputDelay cfg) ->
  nrun (nstep n ne) es2 n2 -> n_fed n2 i = Some g -> canSend g ->
  t - o_inputDelay cfg <= f_send g.
Proof.
  intros n0 es n ne j e f r t i es2 n2 g F0 R1 A EA J ST ER IG ADV f' cfg DP NE VI TD FE R2 G CS.
  pose proof (nrun_causal _ _ _ R1 (fresh_causal _ F0)) as C.
  destruct (event_claims n ne j e f C A EA J) as [PL EC].
  assert (NF : forall m, e = Ev_msg m -> m_action m <> CMD_FORCE_TIME_GRANT) by (intros m ->; apply PL).
  destruct (grant_from f e r t (proj1 PL) ST ER IG NF) as (c0&trig&out&m&AP&CT&EM&ET&SX&GG). fold f' in CT, ET, SX.
  assert (DF : dead (f_st f') = false) by (rewrite SX; reflexivity).
  destruct (ca_fed _ C j f J) as (K&SO&T&IV).
  assert (NEG : forall i, keptBy n i (-1)).
  { intros k h H. apply keeps_start. apply (ca_fed _ C k h H). }
  assert (AL : dead (f_st f) = false) by (rewrite ST; reflexivity).
  destruct (aprims_tn (keptBy n) j NEG e _ _ (EC DF) AP T (ca_tab _ C j f J AL)) as [T0 TN].
  destruct T0 as (I0&S0&SF0).
  (* the entry of [i] in the table on which the decision was taken *)
  assert (ENT : exists d, getDep (c_deps c0) i = Some d /\ dependency d = true).
  { pose proof (grant_table c0 trig) as [GT _]. rewrite CT in GT. cbn [fst] in GT. rewrite I0 in GT.
    destruct (isDependency_getDep _ _ DP) as (d'&D'&DD).
    destruct (grantTab_back j _ _ i d' S0 NE GT D') as (d&D1&_&D2). exists d. split; [exact D1|]. congruence. }
  destruct ENT as (d&D1&D2). pose proof (TN i d NE D1) as KD.
  (* the decision *)
  pose proof (checkTimeGrant_spec c0 trig) as SP. cbn zeta in SP. rewrite CT in SP. destruct SP as [SP1 SP2].
  assert (GM : grants m = true) by (destruct m; try reflexivity; subst r; destruct IG; discriminate).
  specialize (SP2 GM). destruct SP2 as (Q1&_).
  assert (OP : c_opts (f_tc f') = c_opts c0 /\ t = c_exec (fst (updateTimeFactors c0))).
  { pose proof (updateTimeFactors_core c0) as U. revert SP1 U. generalize (fst (updateTimeFactors c0)) as c1. intros c1 SP1 U.
    destruct m; try discriminate GM; cbn [grantedFrom] in SP1.
    - destruct SP1 as [_ SP1]. core_inv SP1. core_inv U. split; congruence.
    - destruct SP1 as [_ SP1]. cbn zeta in SP1. destruct (is_force_iter (c_iterating c1)); core_inv SP1; core_inv U; (split; [congruence|]).
      + exfalso. assert (t = c_granted (f_tc f)) by congruence. lia.
      + congruence. }
  destruct OP as [OP TE].
  assert (RE : o_restrictive (c_opts c0) = true).
  { destruct (step_R f e PL) as [RR _]. destruct (RR K) as (K'&_). fold f' in K'. rewrite SX in K'. destruct (K' eq_refl) as (_&(RE&_)&_).
    rewrite <- OP. exact RE. }
  (* so [t] is at most what [i] has promised *)
  destruct (getDep_in _ _ _ D1) as [IN FD].
  assert (NI : fedID d <> invalidId) by (rewrite FD; intros ->; discriminate VI).
  pose proof (total_released (c_deps c0) (o_restrictive (c_opts c0) || c_globalTime c0) invalidId (c_seq c0) d IN D2 eq_refl NI (SF0 i d NE D1)) as TR.
  assert (AL2 : c_allow (fst (updateTimeFactors c0)) = let n := next (generateMinTimeTotal (c_deps c0) (o_restrictive (c_opts c0) || c_globalTime c0) invalidId invalidId (c_seq c0)) in
     if n <? cTerminationTime - o_outputDelay (c_opts c0) - Z.max (o_period (c_opts c0)) (o_timeDelta (c_opts c0)) then o_inputDelay (c_opts c0) + n else maxVal).
  { unfold updateTimeFactors. generalize (generateMinTimeTotal (c_deps c0) (o_restrictive (c_opts c0) || c_globalTime c0) invalidId invalidId (c_seq c0)). intros tot.
    destruct (minDe tot <? _); reflexivity. }
  assert (LE : t - o_inputDelay cfg <= next d).
  { unfold released in TR. rewrite RE in *. cbn [orb] in *. rewrite AL2 in Q1. cbv zeta in Q1. rewrite <- TE in Q1.
    unfold cfg, farFromEnd in *. rewrite OP in *.
    destruct (ts_ltb (tst d) ts_time_granted);
    destruct (Z.ltb_spec (next (generateMinTimeTotal (c_deps c0) true invalidId invalidId (c_seq c0)))
      (cTerminationTime - o_outputDelay (c_opts c0) - Z.max (o_period (c_opts c0)) (o_timeDelta (c_opts c0)))); lia. }
  (* and [i] keeps its promise *)
  assert (C1 : causal (nstep n ne)) by (apply nstep_causal; assumption).
  pose proof (nrun_kept _ _ _ i _ R2 C1 (nstep_kept n ne i _ C A KD) g G) as KP.
  destruct (ca_fed _ (nrun_causal _ _ _ R2 C1) i g G) as (_&(SO1&SO2)&_).
  assert (TC : t < maxVal).
  { unfold farFromEnd, cfg in FE. destruct (step_R f e PL) as [RR _]. destruct (RR K) as (K'&_). fold f' in K'. rewrite SX in K'.
    destruct (K' eq_refl) as ((OO&_)&(_&_&_&_)&_). unfold opts_ok, bigTime in OO. unfold cTerminationTime, maxVal in *. lia. }
  destruct CS as [GMT [CS|CS]]; unfold keepsF, keeps in KP; rewrite CS in KP.
  - exfalso. unfold initializationTime, negEpsilon in KP. lia.
  - rewrite GMT in KP. destruct (SO2 CS GMT) as [X|X]; rewrite X; [unfold allowedSendTime; lia|].
    assert (0 <= o_inputDelay cfg). { destruct (step_R f e PL) as [RR _]. destruct (RR K) as (K'&_). fold f' in K'. rewrite SX in K'.
    destruct (K' eq_refl) as (_&(_&ID&_)&_). exact ID. }
    lia.
Qed.

(** ** Concrete federations *)
Definition int64b (t : Z) : bool := (-9223372036854775808 <=? t) && (t <=? maxVal).
Definition plainb (f : fed) (e : event) : bool :=
  match e with
  | Ev_msg cmd => int64b (m_actionTime cmd) && negb (m_action cmd =? CMD_FORCE_TIME_GRANT)
      && (negb (m_action cmd =? CMD_INIT_GRANT) || (negb (checkFlag observer_flag cmd) && negb (checkFlag dynamic_join_flag cmd)))
  | Ev_request t _ nv nm => int64b t && int64b nv && int64b nm && f_gm f
  | Ev_data _ (DK_value t) | Ev_data _ (DK_message t) => int64b t
  | Ev_timeProp _ _ | Ev_flag _ _ => false
  | _ => true
  end.
Lemma plainb_ok f e : plainb f e = true -> plain f e.
Proof.
  assert (I : forall t, int64b t = true -> int64 t) by (intros t H; unfold int64b in H; unfold int64; apply andb_prop in H as [H1 H2]; apply Z.leb_le in H1; apply Z.leb_le in H2; split; assumption).
  destruct e as [cmd|it|t it nv nm|cmd k|p v|g v|v|g|g|g]; cbn [plainb]; intros H; try discriminate H; try (split; exact Logic.I; fail).
  - apply andb_prop in H as [H H3]. apply andb_prop in H as [H1 H2]. split; [apply I; exact H1|]. split.
    + destruct (Z.eqb_spec (m_action cmd) CMD_FORCE_TIME_GRANT); [discriminate H2|assumption].
    + intros E. rewrite E, Z.eqb_refl in H3. cbn [negb orb] in H3. apply andb_prop in H3 as [A B].
      destruct (checkFlag observer_flag cmd), (checkFlag dynamic_join_flag cmd); try discriminate; auto.
  - apply andb_prop in H as [H H4]. apply andb_prop in H as [H H3]. apply andb_prop in H as [H1 H2]. split; [|exact H4]. repeat split; apply I; assumption.
  - destruct k; (split; [|exact Logic.I]); cbn; auto.
Qed.
Definition honestb (n : net) (j : Z) (e : event) : bool :=
  match e with
  | Ev_msg cmd => match claim cmd with None => true | Some _ =>
      (m_source_id cmd =? j) || match n_fed n (m_source_id cmd) with None => true | Some g => dead (f_st g) end end
  | _ => true
  end.
Definition allowedb (n : net) (e : nevent) : bool :=
  match eventAt n e with
  | None => true
  | Some (j, ev) => match n_fed n j with None => true | Some f => plainb f ev end
      && match e with N_local _ _ => honestb n j ev | _ => true end
  end.
Lemma allowedb_ok n e : allowedb n e = true -> allowed n e.
Proof.
  unfold allowedb. destruct e as [k|j ev]; cbn [eventAt allowed].
  - destruct (nth_error (n_log n) k) as [m|]; cbn [option_map]; [|intros _ m f E; discriminate E].
    intros H m' f E F. injection E as <-. rewrite F in H. apply plainb_ok. rewrite andb_true_r in H. exact H.
  - intros H. apply andb_prop in H as [H1 H2]. split.
    + intros f F. rewrite F in H1. apply plainb_ok. exact H1.
    + intros cmd -> NC NE g G. cbn [honestb] in H2. destruct (claim cmd); [|congruence]. rewrite G in H2.
      destruct (Z.eqb_spec (m_source_id cmd) j); [contradiction|]. exact H2.
Qed.
Fixpoint nrunb (n : net) (es : list nevent) : option net :=
  match es with
  | [] => Some n
  | e :: r => if allowedb n e then nrunb (nstep n e) r else None
  end.
Lemma nrunb_ok es : forall n n', nrunb n es = Some n' -> nrun n es n'.
Proof.
  induction es as [|e es IH]; intros n n' H; cbn in H; [injection H as <-; constructor|].
  destruct (allowedb n e) eqn:A; [|discriminate H]. constructor; [apply allowedb_ok; exact A|]. apply IH. exact H.
Qed.
Definition nafter (n : net) (es : list nevent) : net := fold_left nstep es n.
Lemma nafter_ok es : forall n, match nrunb n es with Some _ => true | None => false end = true -> nrun n es (nafter n es).
Proof.
  induction es as [|e es IH]; intros n H; cbn in H; [constructor|].
  destruct (allowedb n e) eqn:A; [|discriminate H]. constructor; [apply allowedb_ok; exact A|]. apply IH. exact H.
Qed.

(** four federates in a chain: [fB] takes values from [fA], [fC] from [fB], [fD] from [fC] *)
Definition fA := 131075. Definition fB := 131074. Definition fC := 131073. Definition fD := 131072.
Definition chainOf (o : tcopts) : net :=
  mkNet (fun i => if (i =? fA) || (i =? fB) || (i =? fC) || (i =? fD) then Some (fed_init i o 50) else None) [].
Definition initGrantTo (i : Z) := N_local i (Ev_msg (set_m_dest_id i (newMsg CMD_INIT_GRANT parent_broker_id))).
Definition linked (a b : Z) := [N_local b (Ev_addDependency a); N_local a (Ev_addDependent b)].
Definition asks (i t : Z) := N_local i (Ev_request t NO_ITERATIONS maxVal maxVal).
Definition gets (i s t : Z) := N_local i (Ev_data (set_m_dest_id i (set_m_actionTime t (newMsg CMD_PUB s))) (DK_value t)).
(** the commands sent from the [a]-th to the [b]-th arrive in the order in which they were sent *)
Definition arrive (a b : nat) := map N_deliver (seq a (b - a)).
Definition chainStart : list nevent :=
  linked fA fB ++ linked fB fC ++ linked fC fD ++ map initGrantTo [fA; fB; fC; fD]
  ++ map (fun i => N_local i (Ev_enterExec NO_ITERATIONS)) [fA; fB; fC; fD] ++ arrive 0 9.

(** the hypotheses of the theorem are met: [fB] is granted 3 once it knows that [fA] is at 5 *)
Definition restrictiveOpts : tcopts := set_o_restrictive true opts_default.
Definition exampleRun : list nevent := chainStart ++ [asks fB 3; asks fA 5] ++ arrive 9 11.
Example C10_not_vacuous :
  let n0 := chainOf restrictiveOpts in
  let n := nafter n0 exampleRun in
  fresh n0 /\ nrun n0 exampleRun n /\ allowed n (N_deliver 11)
  /\ (exists f e, eventAt n (N_deliver 11) = Some (fB, e) /\ n_fed n fB = Some f /\ f_st f = EXECUTING
      /\ e_ret (snd (step f e)) = Some (PR_NEXT, 3) /\ c_granted (f_tc f) < 3
      /\ isDependency (c_deps (f_tc (fst (step f e)))) fA = true /\ o_inputDelay (c_opts (f_tc (fst (step f e)))) = 0
      /\ farFromEnd (c_opts (f_tc (fst (step f e)))) 3)
  /\ (exists g, n_fed (nstep n (N_deliver 11)) fA = Some g /\ canSend g /\ f_send g = 5).
Proof.
  cbv zeta. split.
  { split; [reflexivity|]. intros i f F. exists restrictiveOpts, 50. split.
    - unfold fixedOpts, opts_ok, bigTime. cbn. lia.
    - cbn [n_fed chainOf] in F. destruct ((i =? fA) || (i =? fB) || (i =? fC) || (i =? fD)); [|discriminate F]. congruence. }
  split; [apply nafter_ok; vm_compute; reflexivity|]. split; [apply allowedb_ok; vm_compute; reflexivity|]. split.
  - eexists. eexists. split; [vm_compute; reflexivity|]. split; [vm_compute; reflexivity|].
    split; [reflexivity|]. split; [vm_compute; reflexivity|]. split; [vm_compute; reflexivity|]. split; [vm_compute; reflexivity|]. split; vm_compute; reflexivity.
  - eexists. split; [vm_compute; reflexivity|]. split; [split; [reflexivity|right; reflexivity]|]. reflexivity.
Qed.

(** With the default policy the property fails, although every command arrives exactly once and in the order in
    which it was sent.  All four federates are at zero; [fD] requests 8, [fC] 20, [fB] 10 and [fA] goes to 5.
    [fC] tells [fD] that the earliest event which can reach it is the 10 of [fB] (Tdemin, TimeCoordinator.cpp:886,
    uses only the Te of its own dependencies), so [fD] is granted 8.  But the value which [fA] publishes at 5
    wakes [fB], whose value wakes [fC], which now publishes at 5. *)
Definition chainTo8 : list nevent := chainStart ++ [asks fD 8; asks fC 20; asks fB 10; asks fA 5] ++ arrive 9 13.
Definition chainBack : list nevent :=
  arrive 14 16 ++ [gets fB fA 5; asks fA 6] ++ arrive 16 21 ++ [gets fC fB 5; asks fB 10] ++ arrive 21 24.
(** which of the sent commands arrive, in this order *)
Definition arrivals (es : list nevent) : list nat := flat_map (fun e => match e with N_deliver k => [k] | _ => [] end) es.
Theorem C10_default_policy_refuted :
  exists n0 es1 n1 ne e f t i es2 n2 g,
  n_log n0 = [] /\ (forall j h, n_fed n0 j = Some h -> h = fed_init j opts_default 50) /\
  nrun n0 es1 n1 /\ allowed n1 ne /\ eventAt n1 ne = Some (fD, e) /\ n_fed n1 fD = Some f /\ f_st f = EXECUTING
  /\ e_ret (snd (step f e)) = Some (PR_NEXT, t) /\ isDependency (c_deps (f_tc (fst (step f e)))) i = true
  /\ nrun (nstep n1 ne) es2 n2 /\ n_fed n2 i = Some g /\ canSend g
  /\ f_send g < t
  /\ arrivals (es1 ++ ne :: es2) = seq 0 (length (n_log n2)).
Proof.
  exists (chainOf opts_default), chainTo8, (nafter (chainOf opts_default) chainTo8), (N_deliver 13). eexists. eexists. exists 8, fC, chainBack.
  eexists. eexists. split; [reflexivity|].
  split. { intros j h F. cbn [n_fed chainOf] in F. destruct ((j =? fA) || (j =? fB) || (j =? fC) || (j =? fD)); [|discriminate F]. congruence. }
  split; [apply nafter_ok; vm_compute; reflexivity|]. split; [apply allowedb_ok; vm_compute; reflexivity|].
  split; [vm_compute; reflexivity|]. split; [vm_compute; reflexivity|]. split; [reflexivity|]. split; [vm_compute; reflexivity|].
  split; [vm_compute; reflexivity|]. split; [apply nafter_ok; vm_compute; reflexivity|].
  split; [vm_compute; reflexivity|]. split; [split; [reflexivity|right; reflexivity]|]. split; vm_compute; reflexivity.
Qed.
