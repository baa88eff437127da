(** * C38, C39: the command queue and bundles of commands *)
From Coq Require Import ZArith Bool List Lia ZifyBool.
From Verif Require Import HTime Action Codec CodecProofs CodecSafe PropsCodec Bundle.
Import ListNotations.
Open Scope Z_scope.

Section Bundles.
Variable json : amsg -> list Z -> amsg * bool.
Variable jsonText : amsg -> list Z.
Variable host : bool.
Notation append := (appendMessage jsonText host).
Notation process := (commandProcessor json host).

(** a command that can be bundled: it can be serialized, is not asked to travel as JSON, and is an ordinary command
    (not one that controls the processing loop or is itself a bundle) *)
Definition plain (m : amsg) : Prop :=
  wire m /\ Z.testbit (m_flags m) jsonFlag = false /\ m_action m <> CMD_IGNORE /\ isControl (m_action m) = false /\ m_action m <> CMD_MULTI_MESSAGE.
Definition isBundle (b : amsg) (ms : list amsg) : Prop :=
  m_action b = CMD_MULTI_MESSAGE /\ m_counter b = len ms /\ m_strings b = map (toString host) ms /\ m_payload b = [].

Lemma setAt_end i s l : i = length l -> setAt i s l = l ++ [s].
Proof. intros ->. unfold setAt. rewrite Nat.ltb_irrefl, Nat.sub_diag. reflexivity. Qed.
Lemma append_room b ms m : isBundle b ms -> plain m -> len ms < 255 -> isBundle (fst (append b m)) (ms ++ [m]) /\ snd (append b m) = len ms + 1.
Proof.
  intros (A & C & S & P) (W & J & _) L. unfold appendMessage. rewrite A, Z.eqb_refl, C. replace (len ms <? 255) with true by lia. unfold setString. pose proof (len_nonneg ms).
  replace ((255 <=? len ms) || (len ms <? 0)) with false by lia. cbn [fst snd]. split; [|reflexivity]. unfold serialize. rewrite J.
  split; [exact A|]. split; [cbn; rewrite len_app; reflexivity|]. split; [|exact P]. cbn [set_m_counter set_m_strings m_strings]. rewrite S, setAt_end by (rewrite map_length; unfold len; lia). rewrite map_app. reflexivity.
Qed.
Lemma append_full b ms m : isBundle b ms -> 255 <= len ms -> append b m = (b, -1).
Proof. intros (A & C & _) L. unfold appendMessage. rewrite A, Z.eqb_refl, C. replace (len ms <? 255) with false by lia. reflexivity. Qed.
Lemma new_bundle fed h : isBundle (newPackage fed h) [].
Proof. repeat split. Qed.
Lemma decoded_plain m : wire m -> decoded json host (toString host m) = carried m.
Proof. intros W. unfold decoded. pose proof (C20_command_round_trip json host m (fresh CMD_IGNORE) [] W eq_refl) as E. rewrite app_nil_r in E. rewrite E. reflexivity. Qed.
Lemma carried_action m : m_action (carried m) = m_action m.
Proof. unfold carried. destruct (_ =? _); reflexivity. Qed.
Lemma process_plain d halt m : plain m -> process (S d) halt (carried m) = (if halt then [] else [carried m], CMD_IGNORE).
Proof.
  intros (W & _ & NI & NC & NM). cbn [commandProcessor]. rewrite carried_action. replace (m_action m =? CMD_IGNORE) with false by lia. rewrite NC. replace (m_action m =? CMD_MULTI_MESSAGE) with false by lia. destruct halt; reflexivity.
Qed.
Lemma process_bundle d b ms : isBundle b ms -> Forall plain ms -> process (S (S d)) false b = (map carried ms, CMD_IGNORE).
Proof.
  intros (A & C & SS & _) F. remember (S d) as d1 eqn:D1. cbn [commandProcessor]. rewrite A. change (CMD_MULTI_MESSAGE =? CMD_IGNORE) with false. change (isControl CMD_MULTI_MESSAGE) with false. rewrite Z.eqb_refl. cbv iota.
  rewrite C. replace (Z.to_nat (len ms)) with (length ms) by (unfold len; lia).
  match goal with |- ?loop (length ms) 0%nat = _ => set (lp := loop) end.
  assert (G : forall post pre, ms = pre ++ post -> lp (length post) (length pre) = (map carried post, CMD_IGNORE)); [|apply (G ms [] eq_refl)].
  induction post as [|m post IH]; intros pre E; [reflexivity|]. cbn [length]. unfold lp at 1. fold lp.
  assert (GS : getString (Z.of_nat (length pre)) b = toString host m).
  { unfold getString. replace (Z.of_nat (length pre) <? 0) with false by lia. rewrite Nat2Z.id, SS, E, map_app, app_nth2 by (rewrite map_length; lia). rewrite map_length, Nat.sub_diag. reflexivity. }
  assert (PM : plain m) by (rewrite E in F; apply Forall_app in F as [_ F]; inversion F; assumption).
  rewrite GS, decoded_plain by apply PM. rewrite D1, process_plain by exact PM. change (negb (CMD_IGNORE =? CMD_IGNORE) && negb (CMD_IGNORE =? CMD_TICK)) with false. cbv iota.
  specialize (IH (pre ++ [m])). rewrite app_length in IH. cbn [length] in IH. rewrite Nat.add_1_r in IH. rewrite IH by (rewrite E, <- app_assoc; reflexivity). reflexivity.
Qed.

(** ** C39: bundling commands and processing the bundle processes the same commands in the same order *)
Theorem C39_bundle_unpacks_in_order ms d : Forall plain ms -> len ms <= 255 ->
  process (S (S d)) false (fold_left (fun b m => fst (append b m)) ms (fresh CMD_MULTI_MESSAGE)) = (map carried ms, CMD_IGNORE).
Proof.
  intros F L. apply process_bundle; [|exact F]. assert (G : forall post pre b, isBundle b pre -> Forall plain post -> len pre + len post <= 255 -> isBundle (fold_left (fun b m => fst (append b m)) post b) (pre ++ post)).
  { clear. induction post as [|m post IH]; intros pre b B F L; [rewrite app_nil_r; exact B|]. cbn [fold_left]. inversion_clear F as [|? ? P F']. rewrite len_cons in L. pose proof (len_nonneg post).
    replace (pre ++ m :: post) with ((pre ++ [m]) ++ post) by (rewrite <- app_assoc; reflexivity). apply IH; [|exact F'|rewrite len_app; change (len [m]) with 1; lia]. apply append_room; [exact B|exact P|lia]. }
  apply (G ms [] (fresh CMD_MULTI_MESSAGE)); [repeat split|exact F|exact L].
Qed.
(** the return value counts the commands; a full bundle refuses the next and is unchanged *)
Theorem C39_append_counts b ms m : isBundle b ms -> plain m ->
  append b m = (if len ms <? 255 then (fst (append b m), len ms + 1) else (b, -1)).
Proof.
  intros B P. destruct (Z.ltb_spec (len ms) 255) as [L|L]; [|apply append_full with ms; [exact B|lia]].
  destruct (append_room b ms m B P L) as [_ E]. destruct (append b m) as [p r]. cbn in *. rewrite E. reflexivity.
Qed.
Lemma bundleAll_spec fed h ms : forall b pre, isBundle b pre -> Forall plain pre -> Forall plain ms -> len pre <= 255 ->
  exists groups, Forall2 isBundle (bundleAll jsonText host fed h b ms) groups /\ concat groups = pre ++ ms /\ Forall (fun g => Forall plain g /\ len g <= 255) groups.
Proof.
  induction ms as [|m ms IH]; intros b pre B FP F L.
  - exists [pre]. cbn [bundleAll concat]. rewrite app_nil_r. split; [constructor; [exact B|constructor]|]. split; [reflexivity|]. constructor; [split; assumption|constructor].
  - inversion_clear F as [|? ? P F']. cbn [bundleAll]. destruct (Z.ltb_spec (len pre) 255) as [R|R].
    + destruct (append_room b pre m B P R) as [B2 E]. destruct (append b m) as [p r]. cbn in *. subst r. pose proof (len_nonneg pre). replace (len pre + 1 <? 0) with false by lia.
      destruct (IH p (pre ++ [m]) B2) as (g & G1 & G2 & G3); [apply Forall_app; split; [exact FP|constructor; [exact P|constructor]]|exact F'|rewrite len_app; change (len [m]) with 1; lia|].
      exists g. split; [exact G1|]. split; [rewrite G2, <- app_assoc; reflexivity|exact G3].
    + rewrite (append_full b pre m B R). change (-1 <? 0) with true. cbv iota. destruct (append_room (newPackage fed h) [] m (new_bundle fed h) P) as [B2 _]; [change (len (@nil amsg)) with 0; lia|]. cbn [app] in B2.
      destruct (IH _ [m] B2) as (g & G1 & G2 & G3); [constructor; [exact P|constructor]|exact F'|change (len [m]) with 1; lia|].
      exists (pre :: g). split; [constructor; [exact B|exact G1]|]. split; [cbn [concat]; rewrite G2; reflexivity|]. constructor; [split; assumption|exact G3].
Qed.
Definition allProcessed (d : nat) (bs : list amsg) : list amsg := flat_map (fun b => fst (process d false b)) bs.
Lemma groups_processed d bs groups : Forall2 isBundle bs groups -> Forall (fun g => Forall plain g /\ len g <= 255) groups -> allProcessed (S (S d)) bs = map carried (concat groups).
Proof.
  induction 1 as [|b g bs groups B _ IH]; intros F; [reflexivity|]. inversion_clear F as [|? ? [P _] F']. unfold allProcessed in *. cbn [flat_map concat]. rewrite (process_bundle d b g B P), IH by exact F'. rewrite map_app. reflexivity.
Qed.
(** a value published to any number of subscribers: exactly one command for each subscriber is processed, in the
    order of the subscribers *)
Theorem C39_publication_reaches_every_subscriber pub subs d : (forall t, In t subs -> plain (setDestination t pub)) -> (forall t, In t subs -> carried (setDestination t pub) = setDestination t pub) ->
  allProcessed (S (S d)) (publishTo jsonText host pub subs) = map (fun t => setDestination t pub) subs.
Proof.
  intros P C. unfold publishTo. destruct subs as [|t [|t2 subs]]; [reflexivity| |].
  - unfold allProcessed. cbn [flat_map map]. rewrite <- (C t) at 1 by (left; reflexivity). rewrite process_plain by (apply P; left; reflexivity). rewrite C by (left; reflexivity). reflexivity.
  - set (l := t :: t2 :: subs) in *. clearbody l. clear t t2 subs.
    destruct (bundleAll_spec (m_source_id pub) (m_source_handle pub) (map (fun t => setDestination t pub) l) _ [] (new_bundle (m_source_id pub) (m_source_handle pub))) as (g & G1 & G2 & G3).
    + constructor.
    + apply Forall_forall. intros x I. apply in_map_iff in I as (t & <- & I). apply P, I.
    + change (len (@nil amsg)) with 0. lia.
    + rewrite (groups_processed d _ g G1 G3), G2. cbn [app]. rewrite map_map. apply map_ext_in. exact C.
Qed.
(** every bundle has at most 255 commands *)
Theorem C39_at_most_255_per_bundle pub subs : (forall t, In t subs -> plain (setDestination t pub)) -> Forall (fun b => len (m_strings b) <= 255 \/ subs = [] \/ exists t, subs = [t]) (publishTo jsonText host pub subs).
Proof.
  intros P. unfold publishTo. destruct subs as [|t [|t2 subs]]; [constructor|constructor; [right; right; eauto|constructor]|].
  set (l := t :: t2 :: subs) in *. destruct (bundleAll_spec (m_source_id pub) (m_source_handle pub) (map (fun t => setDestination t pub) l) _ [] (new_bundle (m_source_id pub) (m_source_handle pub))) as (g & G1 & _ & G3).
  + constructor.
  + apply Forall_forall. intros x I. apply in_map_iff in I as (t' & <- & I). apply P, I.
  + change (len (@nil amsg)) with 0. lia.
  + clear -G1 G3. induction G1 as [|b x bs gs (_ & _ & S & _) _ IH]; [constructor|]. inversion_clear G3 as [|? ? [_ L] G3']. constructor; [|apply IH, G3']. left. rewrite S. unfold len in *. rewrite map_length. exact L.
Qed.
(** The disconnect notices of a time coordinator do not check for a full bundle: only the first 255 federates are
    told. *)
Lemma goodbyes_spec byes : Forall plain byes -> isBundle (goodbyes jsonText host byes) (firstn 255 byes).
Proof.
  intros F. unfold goodbyes. assert (G : forall post pre b, isBundle b (firstn 255 pre) -> Forall plain post -> isBundle (fold_left (fun b m => fst (append b m)) post b) (firstn 255 (pre ++ post))).
  { clear. induction post as [|m post IH]; intros pre b B F; [rewrite app_nil_r; exact B|]. cbn [fold_left]. inversion_clear F as [|? ? P F'].
    replace (pre ++ m :: post) with ((pre ++ [m]) ++ post) by (rewrite <- app_assoc; reflexivity). apply IH; [|exact F'].
    destruct (Nat.lt_ge_cases (length pre) 255) as [L|L].
    - rewrite firstn_all2 in B by lia. rewrite firstn_all2 by (rewrite app_length; cbn [length]; lia). apply append_room; [exact B|exact P|unfold len; lia].
    - rewrite firstn_app. replace (255 - length pre)%nat with 0%nat by lia. cbn [firstn]. rewrite app_nil_r. rewrite (append_full b (firstn 255 pre) m B); [exact B|]. unfold len. rewrite firstn_length. lia. }
  apply (G byes [] (fresh CMD_MULTI_MESSAGE)); [repeat split|exact F].
Qed.
Theorem C39_disconnect_notices byes d : Forall plain byes -> process (S (S d)) false (goodbyes jsonText host byes) = (map carried (firstn 255 byes), CMD_IGNORE).
Proof. intros F. apply process_bundle; [apply goodbyes_spec, F|]. rewrite <- (firstn_skipn 255 byes) in F. apply Forall_app in F. apply F. Qed.
Theorem C39_disconnect_notices_lost_refuted byes d : Forall plain byes -> 255 < len byes -> fst (process (S (S d)) false (goodbyes jsonText host byes)) <> map carried byes.
Proof.
  intros F L. rewrite C39_disconnect_notices by exact F. cbn [fst]. intros E. apply (f_equal (@length amsg)) in E. rewrite !map_length, firstn_length in E. unfold len in L. lia.
Qed.
End Bundles.

Definition bye (n : Z) : amsg := set_m_dest_id n (fresh CMD_DISCONNECT).
Lemma bye_plain n : int32 n -> plain (bye n).
Proof.
  intros B. split; [|vm_compute; intuition congruence]. constructor; try exact B; try (apply blank_wire); vm_compute; intuition congruence.
Qed.
Example C39_notices_nonvacuous : exists byes, Forall plain byes /\ 255 < len byes.
Proof. exists (map (fun n => bye (Z.of_nat n)) (seq 0 300)). split; [|vm_compute; reflexivity]. apply Forall_forall. intros x I. apply in_map_iff in I as (n & <- & I). apply in_seq in I. apply bye_plain. unfold int32. lia. Qed.
Example C39_publication_nonvacuous : plain (setDestination (5, 6) sample) /\ carried (setDestination (5, 6) sample) = setDestination (5, 6) sample /\
  length (publishTo (fun _ => []) true sample (repeat (5, 6) 300)) = 2%nat.
Proof.
  split; [|split; [reflexivity|vm_compute; reflexivity]]. split; [|vm_compute; intuition congruence]. constructor; try apply sample_wire; vm_compute; intuition congruence.
Qed.
(** a ping (or a configuration command) inside a bundle ends its processing: the commands behind it are lost *)
Theorem C39_ping_ends_bundle_refuted : exists ms : list amsg, Forall wire ms /\
  fst (commandProcessor (fun m _ => (m, false)) true 5 false (fold_left (fun b m => fst (appendMessage (fun _ => []) true b m)) ms (fresh CMD_MULTI_MESSAGE))) = [] /\ In sample ms.
Proof.
  exists [fresh CMD_PING; sample]. split; [|split; [vm_compute; reflexivity|right; left; reflexivity]].
  constructor; [|constructor; [apply sample_wire|constructor]]. constructor; try (apply blank_wire); vm_compute; intuition congruence.
Qed.

(** ** C38: the command queue *)
Fixpoint added (es : list qevent) : list amsg := match es with [] => [] | Add m :: r => m :: added r | Take :: r => added r end.
Lemma added_app a b : added (a ++ b) = added a ++ added b.
Proof. induction a as [|[m|] a IH]; cbn; [reflexivity|rewrite IH; reflexivity|exact IH]. Qed.
(** priority commands are the ones with a negative code (ActionMessageDefintions.hpp: cmd_ignore is 0) *)
Definition urgent (m : amsg) : bool := m_action m <? 0.
Lemma urgent_spec m : isPriority m = urgent m.
Proof. reflexivity. Qed.
Definition classOf (c : bool) (l : list amsg) : list amsg := filter (fun m => Bool.eqb (urgent m) c) l.
Definition waiting (c : bool) (q : queue) : list amsg := if c then q_prio q else q_ord q.
Lemma classOf_app c a b : classOf c (a ++ b) = classOf c a ++ classOf c b.
Proof. apply filter_app. Qed.
Lemma qrun_snoc es e : qrun (es ++ [e]) = qstep (qrun es) e.
Proof. unfold qrun. rewrite fold_left_app. reflexivity. Qed.
Lemma qrun_inv es : Forall (fun m => urgent m = true) (q_prio (fst (qrun es))) /\ Forall (fun m => urgent m = false) (q_ord (fst (qrun es))) /\
  forall c, classOf c (snd (qrun es)) ++ waiting c (fst (qrun es)) = classOf c (added es).
Proof.
  induction es as [|e es IH] using rev_ind; [repeat split; try constructor; intros []; reflexivity|]. rewrite qrun_snoc, added_app. destruct (qrun es) as [q l]. destruct IH as (P & O & I). cbn [fst snd] in *. destruct e as [m|]; cbn [qstep added].
  - unfold addAction. rewrite urgent_spec. cbn [fst snd]. destruct (urgent m) eqn:E; cbn [q_prio q_ord].
    + split; [apply Forall_app; split; [exact P|constructor; [exact E|constructor]]|]. split; [exact O|]. intros c. rewrite classOf_app, <- I. unfold classOf, waiting. cbn [filter]. rewrite E. destruct c; cbn [Bool.eqb q_prio q_ord]; rewrite ?app_nil_r, ?app_assoc; reflexivity.
    + split; [exact P|]. split; [apply Forall_app; split; [exact O|constructor; [exact E|constructor]]|]. intros c. rewrite classOf_app, <- I. unfold classOf, waiting. cbn [filter]. rewrite E. destruct c; cbn [Bool.eqb q_prio q_ord]; rewrite ?app_nil_r, ?app_assoc; reflexivity.
  - cbn [fst snd]. rewrite app_nil_r. unfold popQueue. destruct q as [pr od]. cbn [q_prio q_ord] in *. destruct pr as [|m pr].
    + destruct od as [|m od]; [cbn [fst snd q_prio q_ord]; auto|]. cbn [fst snd q_prio q_ord]. inversion_clear O as [|? ? E O']. split; [constructor|]. split; [exact O'|]. intros c. rewrite <- I, classOf_app. unfold classOf, waiting. cbn [filter]. rewrite E. destruct c; cbn [Bool.eqb q_prio q_ord]; rewrite ?app_nil_r; [reflexivity|]. rewrite <- app_assoc. reflexivity.
    + cbn [fst snd q_prio q_ord]. inversion_clear P as [|? ? E P']. split; [exact P'|]. split; [exact O|]. intros c. rewrite <- I, classOf_app. unfold classOf, waiting. cbn [filter]. rewrite E. destruct c; cbn [Bool.eqb q_prio q_ord]; rewrite ?app_nil_r; [|reflexivity]. rewrite <- app_assoc. reflexivity.
Qed.
(** whatever the schedule of adding threads and of the processing thread: of each class, the commands taken are the
    first ones added, each once and in the order added, and the others are still waiting in that order *)
Theorem C38_class_order_preserved es c :
  exists rest, classOf c (added es) = classOf c (snd (qrun es)) ++ rest /\ rest = waiting c (fst (qrun es)).
Proof. exists (waiting c (fst (qrun es))). split; [symmetry; apply qrun_inv|reflexivity]. Qed.
(** an ordinary command is taken only when no priority command is waiting *)
Theorem C38_priority_first es m : snd (qrun (es ++ [Take])) = snd (qrun es) ++ [m] -> urgent m = false ->
  classOf true (added es) = classOf true (snd (qrun es)).
Proof.
  intros E N. pose proof (qrun_inv es) as (P & O & I). specialize (I true). rewrite <- I. rewrite qrun_snoc in E. destruct (qrun es) as [[pr od] l]. cbn [fst snd q_prio q_ord waiting qstep popQueue] in *. destruct pr as [|p pr]; [rewrite app_nil_r; reflexivity|].
  cbn [snd] in E. apply app_inv_head in E. injection E as ->. inversion_clear P as [|? ? E _]. congruence.
Qed.
(** a waiting command is always taken *)
Theorem C38_progress es : (length (snd (qrun es)) < length (added es))%nat -> exists m, snd (qrun (es ++ [Take])) = snd (qrun es) ++ [m].
Proof.
  intros L. pose proof (qrun_inv es) as (_ & _ & I). rewrite qrun_snoc. assert (T : forall l, length l = (length (classOf true l) + length (classOf false l))%nat).
  { clear. unfold classOf. induction l as [|m l IH]; [reflexivity|]. cbn [filter]. destruct (urgent m); cbn [Bool.eqb length]; lia. }
  rewrite (T (added es)), <- !I, !app_length, (T (snd (qrun es))) in L. destruct (qrun es) as [[pr od] l]. cbn [fst snd waiting q_prio q_ord qstep popQueue] in *. destruct pr as [|p pr]; [|exists p; reflexivity]. destruct od as [|o od]; [cbn [length] in L; lia|exists o; reflexivity].
Qed.
Example C38_nonvacuous : let a := fresh CMD_PUB in let b := fresh CMD_DISCONNECT in let p := fresh CMD_PRIORITY_DISCONNECT in
  snd (qrun [Add a; Add b; Add p; Take; Add p; Take; Take]) = [p; p; a].
Proof. reflexivity. Qed.
