(** * C32, C41: connection timeouts and broker error states *)
From Coq Require Import ZArith Bool List Lia ZifyBool.
From Verif Require Import Monitor.
Import ListNotations.
Open Scope Z_scope.

(** ** Specification from the history: since when a ping to a peer is unanswered *)
Inductive peer := Parent | Sub (id : Z).
Definition answers (pid : Z) (p : peer) (e : mevent) : bool :=
  match e, p with
  | Reply src _, Parent => src =? pid
  | Reply src _, Sub id => (src =? id) && negb (src =? pid)
  | Reset, _ => true
  | DisableParent _, Parent => true
  | _, _ => false
  end.
Definition isPing (p : peer) (o : output) : bool :=
  match o, p with PingParent, Parent => true | PingConn i, Sub id => i =? id | _, _ => false end.
Definition nowOf (e : mevent) : Z := match e with TickCore n _ | TickBroker n _ _ | PingSub n _ => n | _ => 0 end.
Definition sinceStep (p : peer) (acc : Z * option Z) (eo : mevent * list output) : Z * option Z :=
  let '(pid, s) := acc in
  (match fst eo with SetParent id => id | _ => pid end,
   if answers pid p (fst eo) then None else if existsb (isPing p) (snd eo) then Some (nowOf (fst eo)) else s).
Definition history (p : peer) (tr : list (mevent * list output)) : Z * option Z := fold_left (sinceStep p) tr (0, None).
Definition unansweredSince (p : peer) (es : list mevent) : option Z := snd (history p (mtrace initMon es)).
Definition timeoutOf (es : list mevent) : Z := fold_left (fun t e => match e with SetTimeout x => x | _ => t end) es 100000000000000.
(** declared lost *)
Definition isLost (p : peer) (o : output) : Prop := match p with Parent => o = LostParent | Sub id => o = LostConn id end.
Definition outputsOf (es : list mevent) (e : mevent) : list output := snd (mstep (mafter es) e).

(** ** Proof: the monitor's records agree with the history *)
Definition linkSince (l : link) : option Z := if l_waiting l then Some (l_last l) else None.
Fixpoint connSince (id : Z) (l : list link) : option Z := match l with [] => None | c :: r => if l_id c =? id then linkSince c else connSince id r end.
Definition ids (l : list link) : list Z := map l_id l.
Record agrees (m : monitor) (tr : list (mevent * list output)) : Prop := {
  a_pid : fst (history Parent tr) = l_id (mo_parent m);
  a_parent : snd (history Parent tr) = linkSince (mo_parent m);
  a_conns : forall id, snd (history (Sub id) tr) = connSince id (mo_conns m);
  a_nodup : NoDup (ids (mo_conns m))
}.
Lemma history_pid p q tr : fst (history p tr) = fst (history q tr).
Proof. unfold history. induction tr as [|x tr IH] using rev_ind; [reflexivity|]. rewrite !fold_left_app. cbn [fold_left]. destruct (fold_left (sinceStep p) tr (0, None)), (fold_left (sinceStep q) tr (0, None)). cbn in *. subst. reflexivity. Qed.
Lemma history_snoc p tr x : history p (tr ++ [x]) = sinceStep p (history p tr) x.
Proof. unfold history. rewrite fold_left_app. reflexivity. Qed.

Lemma updConn_ids k f l : (forall c, l_id (f c) = l_id c) -> ids (updConn k f l) = ids l.
Proof. intros F. induction l as [|c l IH]; [reflexivity|]. cbn [updConn]. destruct (l_id c =? k); cbn [ids map]; [rewrite F; reflexivity|]. f_equal. exact IH. Qed.
Lemma findConn_in id l : findConn id l = true <-> In id (ids l).
Proof. induction l as [|c l IH]; cbn; [split; [discriminate|tauto]|]. rewrite orb_true_iff, IH, Z.eqb_eq. tauto. Qed.
Lemma connSince_upd id k f l : (forall c, l_id (f c) = l_id c) -> connSince id (updConn k f l) = if id =? k then match find (fun c => l_id c =? k) l with Some c => linkSince (f c) | None => None end else connSince id l.
Proof.
  intros F. induction l as [|c l IH]; [cbn; destruct (id =? k); reflexivity|]. cbn [updConn find]. destruct (Z.eqb_spec (l_id c) k) as [E|E]; cbn [connSince].
  - rewrite F. destruct (Z.eqb_spec (l_id c) id) as [E2|E2], (Z.eqb_spec id k) as [E3|E3]; try lia; reflexivity.
  - destruct (Z.eqb_spec (l_id c) id) as [E2|E2]; [replace (id =? k) with false by lia; reflexivity|]. exact IH.
Qed.
Lemma connSince_find k l : connSince k l = match find (fun c => l_id c =? k) l with Some c => linkSince c | None => None end.
Proof. induction l as [|c l IH]; [reflexivity|]. cbn. destruct (l_id c =? k); [reflexivity|exact IH]. Qed.
Lemma addConn_spec s l : NoDup (ids l) -> NoDup (ids (addConn s l)) /\ (forall id, connSince id (addConn s l) = connSince id l) /\ findConn (s_id s) (addConn s l) = true.
Proof.
  intros N. unfold addConn. destruct (findConn (s_id s) l) eqn:E; [auto|]. split; [|split].
  - unfold ids. rewrite map_app. cbn [map l_id].
    assert (NI : ~ In (s_id s) (map l_id l)) by (intros I; apply (proj2 (findConn_in _ _)) in I; congruence).
    clear E. unfold ids in N. induction (map l_id l) as [|x r IH]; [constructor; [intros []|constructor]|]. inversion_clear N as [|? ? NX NR]. cbn [app]. constructor.
    + rewrite in_app_iff. intros [I|[I|[]]]; [contradiction|]. apply NI. left. symmetry. exact I.
    + apply IH; [exact NR|]. intros I. apply NI. right. exact I.
  - intros id. clear. induction l as [|c l IH]; [cbn; destruct (s_id s =? id); reflexivity|]. cbn [app connSince]. destruct (l_id c =? id); [reflexivity|exact IH].
  - clear. induction l as [|c l IH]; [cbn; rewrite Z.eqb_refl; reflexivity|]. cbn. rewrite IH. apply orb_true_r.
Qed.
Lemma find_some k l : findConn k l = true -> exists c, find (fun c => l_id c =? k) l = Some c.
Proof. induction l as [|c l IH]; cbn; [discriminate|]. destruct (l_id c =? k); [eauto|]. exact IH. Qed.
Lemma pingOne_spec now s l : NoDup (ids l) ->
  NoDup (ids (fst (pingOne now s l))) /\ forall id, connSince id (fst (pingOne now s l)) = if existsb (isPing (Sub id)) (snd (pingOne now s l)) then Some now else connSince id l.
Proof.
  intros N. destruct (addConn_spec s l N) as (N1 & C1 & F1). unfold pingOne. set (l1 := addConn s l) in *. destruct (s_ok s); [destruct (disabledConn (s_id s) l1)|]; cbn [fst snd existsb].
  - auto.
  - rewrite updConn_ids by reflexivity. split; [exact N1|]. intros id. rewrite connSince_upd by reflexivity. cbn [isPing]. rewrite orb_false_r, Z.eqb_sym. destruct (Z.eqb_spec (s_id s) id) as [E|E]; [|apply C1]. destruct (find_some _ _ F1) as [c ->]. reflexivity.
  - rewrite updConn_ids by reflexivity. split; [exact N1|]. intros id. rewrite connSince_upd by reflexivity. rewrite <- C1. destruct (Z.eqb_spec id (s_id s)) as [->|E]; [|reflexivity]. rewrite (connSince_find (s_id s) l1). destruct (find _ l1); reflexivity.
Qed.
Lemma pingAll_spec now subs : forall l, NoDup (ids l) ->
  NoDup (ids (fst (pingAll now subs l))) /\ forall id, connSince id (fst (pingAll now subs l)) = if existsb (isPing (Sub id)) (snd (pingAll now subs l)) then Some now else connSince id l.
Proof.
  induction subs as [|s subs IH]; intros l N; [cbn; auto|]. cbn [pingAll]. destruct (pingOne_spec now s l N) as [N1 C1]. destruct (pingOne now s l) as [l1 o1]. cbn [fst snd] in *. destruct (IH l1 N1) as [N2 C2]. destruct (pingAll now subs l1) as [l2 o2]. cbn [fst snd] in *.
  split; [exact N2|]. intros id. rewrite existsb_app, C2, C1. destruct (existsb (isPing (Sub id)) o1), (existsb (isPing (Sub id)) o2); reflexivity.
Qed.
Lemma pingAll_noparent now subs : forall l, existsb (isPing Parent) (snd (pingAll now subs l)) = false.
Proof. induction subs as [|s subs IH]; intros l; [reflexivity|]. cbn [pingAll]. destruct (pingOne now s l) as [l1 o1] eqn:E. specialize (IH l1). destruct (pingAll now subs l1) as [l2 o2]. cbn [snd] in *. rewrite existsb_app, IH, orb_false_r. unfold pingOne in E. destruct (s_ok s); [destruct (disabledConn _ _)|]; injection E as <- <-; reflexivity. Qed.
Lemma pingSub_spec now subs m : NoDup (ids (mo_conns m)) ->
  mo_parent (fst (pingSub now subs m)) = mo_parent m /\ existsb (isPing Parent) (snd (pingSub now subs m)) = false /\ NoDup (ids (mo_conns (fst (pingSub now subs m)))) /\
  forall id, connSince id (mo_conns (fst (pingSub now subs m))) = if existsb (isPing (Sub id)) (snd (pingSub now subs m)) then Some now else connSince id (mo_conns m).
Proof.
  intros N. unfold pingSub. destruct (pingAll_spec now subs (mo_conns m) N) as [N1 C1]. pose proof (pingAll_noparent now subs (mo_conns m)) as P. destruct (pingAll now subs (mo_conns m)) as [l o]. cbn [fst snd setConns mo_parent mo_conns] in *.
  split; [reflexivity|]. rewrite existsb_app, P. split; [destruct o; reflexivity|]. split; [exact N1|]. intros id. rewrite C1, existsb_app. destruct (existsb (isPing (Sub id)) o); [reflexivity|]. destruct o; reflexivity.
Qed.
Lemma connOut_noping now m p l : existsb (isPing p) (flat_map (connOut now m) l) = false.
Proof. induction l as [|c l IH]; [reflexivity|]. cbn [flat_map]. rewrite existsb_app, IH, orb_false_r. unfold connOut. destruct (l_waiting c); [|reflexivity]. destruct (_ <? _), p; reflexivity. Qed.
Lemma await_spec now m : mo_parent (fst (awaitConnection now m)) = mo_parent m /\ mo_conns (fst (awaitConnection now m)) = mo_conns m /\ forall p, existsb (isPing p) (snd (awaitConnection now m)) = false.
Proof. unfold awaitConnection. destruct (mo_waitConn m); cbn; (split; [reflexivity|split; [reflexivity|]]); intros p; [destruct (_ <? _); destruct p|]; reflexivity. Qed.
Lemma map_connSince id f l : (forall c, l_id (f c) = l_id c) -> connSince id (map f l) = match find (fun c => l_id c =? id) l with Some c => linkSince (f c) | None => None end.
Proof. intros F. induction l as [|c l IH]; [reflexivity|]. cbn. rewrite F. destruct (l_id c =? id); [reflexivity|exact IH]. Qed.
Lemma map_ids f l : (forall c, l_id (f c) = l_id c) -> ids (map f l) = ids l.
Proof. intros F. unfold ids. rewrite map_map. apply map_ext. exact F. Qed.

(** one event: what changes *)
Lemma step_parent m e : linkSince (mo_parent (fst (mstep m e))) =
    (if answers (l_id (mo_parent m)) Parent e then None else if existsb (isPing Parent) (snd (mstep m e)) then Some (nowOf e) else linkSince (mo_parent m))
  /\ l_id (mo_parent (fst (mstep m e))) = match e with SetParent id => id | _ => l_id (mo_parent m) end.
Proof.
  destruct e as [now e|now e subs|now subs|src b| |id|v|t]; cbn [mstep answers nowOf].
  - unfold tickCore. destruct (l_waiting (mo_parent m)) eqn:W.
    + cbn [fst snd existsb]. destruct (_ <? _); auto.
    + destruct (e_connected e && e_hasId e); [destruct (e_higher e); cbn; auto|]. destruct (e_connected e); [cbn; auto|]. destruct (await_spec now m) as (P & _ & O). rewrite P, O. auto.
  - unfold tickBroker. destruct (l_waiting (mo_parent m)) eqn:W; cbn [orb].
    + cbn [fst snd]. rewrite existsb_app, connOut_noping, orb_false_r. split; [|reflexivity]. destruct (negb (e_root e)); cbn [andb]; [|reflexivity]. destruct (_ <? _); reflexivity.
    + rewrite andb_false_r. cbn [app]. destruct (existsb l_waiting (mo_conns m)); [cbn [fst snd]; rewrite connOut_noping; auto|].
      destruct (e_root e).
      * unfold pingSub. pose proof (pingAll_noparent now subs (mo_conns m)) as P. destruct (pingAll now subs (mo_conns m)) as [l o]. cbn [fst snd setConns mo_parent] in *. rewrite !existsb_app, connOut_noping, P. split; [destruct o; reflexivity|reflexivity].
      * destruct (e_connected e && e_hasId e).
        -- destruct (e_higher e); cbn [fst snd]; rewrite existsb_app, connOut_noping; cbn; auto.
        -- destruct (await_spec now m) as (P & _ & O). destruct (awaitConnection now m) as [m' o]. cbn [fst snd] in *. rewrite P, existsb_app, connOut_noping, O. auto.
  - unfold pingSub. pose proof (pingAll_noparent now subs (mo_conns m)) as P. destruct (pingAll now subs (mo_conns m)) as [l o]. cbn [fst snd setConns mo_parent] in *. rewrite existsb_app, P. split; [destruct o; reflexivity|reflexivity].
  - unfold pingReply. destruct (src =? l_id (mo_parent m)); [cbn; auto|]. cbn [fst snd setConns mo_parent]. split; [|reflexivity]. destruct (_ && _); reflexivity.
  - cbn. auto.
  - cbn. auto.
  - cbn. auto.
  - cbn. auto.
Qed.
Lemma step_conns m e : NoDup (ids (mo_conns m)) -> NoDup (ids (mo_conns (fst (mstep m e)))) /\
  forall id, connSince id (mo_conns (fst (mstep m e))) = if answers (l_id (mo_parent m)) (Sub id) e then None else if existsb (isPing (Sub id)) (snd (mstep m e)) then Some (nowOf e) else connSince id (mo_conns m).
Proof.
  intros N. destruct e as [now e|now e subs|now subs|src b| |pid|v|t]; cbn [mstep answers nowOf].
  - unfold tickCore. destruct (l_waiting (mo_parent m)) eqn:W.
    + cbn [fst snd existsb]. split; [exact N|]. intros id. destruct (_ <? _); reflexivity.
    + destruct (e_connected e && e_hasId e); [destruct (e_higher e); cbn; auto|]. destruct (e_connected e); [cbn; auto|]. destruct (await_spec now m) as (_ & C & O). rewrite C. split; [exact N|]. intros id. rewrite O. reflexivity.
  - unfold tickBroker. destruct (l_waiting (mo_parent m) || existsb l_waiting (mo_conns m)).
    + cbn [fst snd]. split; [exact N|]. intros id. rewrite existsb_app, connOut_noping, orb_false_r. destruct (negb (e_root e) && l_waiting (mo_parent m)); [destruct (_ <? _)|]; reflexivity.
    + set (o1 := if negb (e_root e) && l_waiting (mo_parent m) then _ else _). assert (O1 : forall id, existsb (isPing (Sub id)) o1 = false) by (intros id; unfold o1; destruct (_ && _); [destruct (_ <? _)|]; reflexivity). clearbody o1.
      destruct (e_root e).
      * destruct (pingSub_spec now subs m N) as (_ & _ & N1 & C1). destruct (pingSub now subs m) as [m' o3]. cbn [fst snd] in *. split; [exact N1|]. intros id. rewrite !existsb_app, O1, connOut_noping. apply C1.
      * destruct (e_connected e && e_hasId e).
        -- destruct (e_higher e); cbn [fst snd]; (split; [exact N|]); intros id; rewrite !existsb_app, O1, connOut_noping; reflexivity.
        -- destruct (await_spec now m) as (_ & C & O). destruct (awaitConnection now m) as [m' o]. cbn [fst snd] in *. rewrite C. split; [exact N|]. intros id. rewrite !existsb_app, O1, connOut_noping, O. reflexivity.
  - apply pingSub_spec, N.
  - unfold pingReply. destruct (Z.eqb_spec src (l_id (mo_parent m))) as [E|E].
    + cbn [fst snd mo_conns existsb]. split; [exact N|]. intros id. rewrite andb_false_r. reflexivity.
    + cbn [fst snd setConns mo_conns]. rewrite map_ids by (intros c; destruct (_ =? _); reflexivity). split; [exact N|]. intros id. rewrite map_connSince by (intros c; destruct (_ =? _); reflexivity). rewrite connSince_find. cbn [negb]. rewrite andb_true_r.
      replace (existsb (isPing (Sub id)) (if _ && _ then _ else _)) with false by (destruct (_ && _); reflexivity).
      destruct (find (fun c => l_id c =? id) (mo_conns m)) as [c|] eqn:F; [|destruct (src =? id); reflexivity].
      pose proof (List.find_some _ _ F) as [_ EI]. destruct (Z.eqb_spec src id) as [->|NE]; [rewrite EI; reflexivity|]. replace (l_id c =? src) with false by lia. reflexivity.
  - cbn [fst snd reset mo_conns]. rewrite map_ids by reflexivity. split; [exact N|]. intros id. rewrite map_connSince by reflexivity. destruct (find _ _); reflexivity.
  - cbn. auto.
  - cbn. auto.
  - cbn. auto.
Qed.
Lemma mtrace_snoc m es e : mtrace m (es ++ [e]) = mtrace m es ++ [(e, snd (mstep (fold_left (fun m e => fst (mstep m e)) es m) e))].
Proof. revert m. induction es as [|x es IH]; intros m; [reflexivity|]. cbn [app mtrace fold_left]. rewrite IH. reflexivity. Qed.
Lemma mafter_snoc es e : mafter (es ++ [e]) = fst (mstep (mafter es) e).
Proof. unfold mafter. rewrite fold_left_app. reflexivity. Qed.
Lemma monitor_agrees es : agrees (mafter es) (mtrace initMon es).
Proof.
  induction es as [|e es [P S C N]] using rev_ind.
  - constructor; try reflexivity. constructor.
  - rewrite mafter_snoc, mtrace_snoc. change (fold_left (fun m e => fst (mstep m e)) es initMon) with (mafter es). set (m := mafter es) in *.
    destruct (step_parent m e) as [SP SI]. destruct (step_conns m e N) as [N1 SC]. set (o := snd (mstep m e)) in *. constructor; rewrite ?history_snoc.
    + destruct (history Parent (mtrace initMon es)) as [pid s]. cbn [sinceStep fst snd] in *. rewrite SI, P. reflexivity.
    + destruct (history Parent (mtrace initMon es)) as [pid s]. cbn [sinceStep fst snd] in *. subst pid s. rewrite SP. reflexivity.
    + intros id. rewrite history_snoc. specialize (C id). pose proof (history_pid (Sub id) Parent (mtrace initMon es)) as HP. destruct (history (Sub id) (mtrace initMon es)) as [pid s]. cbn [sinceStep fst snd] in *. rewrite HP, P, C. rewrite SC. reflexivity.
    + exact N1.
Qed.
Lemma mafter_timeout es : mo_timeout (mafter es) = timeoutOf es.
Proof.
  induction es as [|e es IH] using rev_ind; [reflexivity|]. rewrite mafter_snoc. unfold timeoutOf. rewrite fold_left_app. cbn [fold_left]. fold (timeoutOf es). rewrite <- IH. set (m := mafter es).
  destruct e as [now e|now e subs|now subs|src b| |pid|v|t]; cbn [mstep]; try reflexivity.
  - unfold tickCore, awaitConnection. destruct (l_waiting _), (e_connected e), (e_hasId e), (e_higher e), (mo_waitConn m); reflexivity.
  - unfold tickBroker, awaitConnection, pingSub. destruct (pingAll now subs (mo_conns m)). destruct (_ || _), (e_root e), (e_connected e), (e_hasId e), (e_higher e), (mo_waitConn m); reflexivity.
  - unfold pingSub. destruct (pingAll now subs (mo_conns m)). reflexivity.
  - unfold pingReply. destruct (_ =? _); reflexivity.
Qed.
Lemma connSince_in c l : NoDup (ids l) -> In c l -> connSince (l_id c) l = linkSince c.
Proof.
  intros N I. induction l as [|d l IH]; [destruct I|]. inversion_clear N as [|? ? ND NL]. cbn [connSince]. destruct I as [->|I]; [rewrite Z.eqb_refl; reflexivity|].
  destruct (Z.eqb_spec (l_id d) (l_id c)) as [E|E]; [exfalso; apply ND; rewrite E; apply in_map, I|]. apply IH; assumption.
Qed.
Lemma connSince_some id l t : connSince id l = Some t -> exists c, In c l /\ l_id c = id /\ l_waiting c = true /\ l_last c = t.
Proof.
  induction l as [|c l IH]; cbn [connSince]; [discriminate|]. destruct (Z.eqb_spec (l_id c) id) as [E|E].
  - unfold linkSince. destruct (l_waiting c) eqn:W; [|discriminate]. intros X. injection X as <-. exists c. repeat split; auto. left. reflexivity.
  - intros X. destruct (IH X) as (d & I & R). exists d. split; [right; exact I|exact R].
Qed.
Lemma pingAll_nolost now subs : forall l p o, In o (snd (pingAll now subs l)) -> ~ isLost p o.
Proof.
  induction subs as [|s subs IH]; intros l p o I; [destruct I|]. cbn [pingAll] in I. destruct (pingOne now s l) as [l1 o1] eqn:E. specialize (IH l1 p o). destruct (pingAll now subs l1) as [l2 o2]. cbn [snd] in *. apply in_app_iff in I as [I|I]; [|auto].
  unfold pingOne in E. destruct (s_ok s); [destruct (disabledConn _ _)|]; injection E as <- <-; try destruct I as [<-|[]]; try destruct I. destruct p; discriminate.
Qed.
Lemma pingSub_nolost now subs m p o : In o (snd (pingSub now subs m)) -> ~ isLost p o.
Proof.
  unfold pingSub. pose proof (pingAll_nolost now subs (mo_conns m) p o) as H. destruct (pingAll now subs (mo_conns m)) as [l os]. cbn [snd] in *. intros I. apply in_app_iff in I as [I|I]; [auto|]. destruct os; [destruct I|destruct I as [<-|[]]; destruct p; discriminate].
Qed.
Lemma await_nolost now m p o : In o (snd (awaitConnection now m)) -> ~ isLost p o.
Proof. unfold awaitConnection. destruct (mo_waitConn m); [destruct (_ <? _)|]; cbn; intros I; try destruct I as [<-|[]]; try destruct I. destruct p; discriminate. Qed.
Lemma lost_records m e p o : NoDup (ids (mo_conns m)) -> In o (snd (mstep m e)) -> isLost p o ->
  exists t, (match p with Parent => linkSince (mo_parent m) | Sub id => connSince id (mo_conns m) end) = Some t /\ mo_timeout m < nowOf e - t.
Proof.
  intros N I L.
  assert (PA : forall now, In o [if mo_timeout m <? now - l_last (mo_parent m) then LostParent else PingParentAgain] -> l_waiting (mo_parent m) = true -> p = Parent /\ linkSince (mo_parent m) = Some (l_last (mo_parent m)) /\ mo_timeout m < now - l_last (mo_parent m)).
  { intros now [<-|[]] W. destruct (Z.ltb_spec (mo_timeout m) (now - l_last (mo_parent m))); destruct p; try discriminate L. split; [reflexivity|]. unfold linkSince. rewrite W. auto. }
  destruct e as [now e|now e subs|now subs|src b| |pid|v|t]; cbn [mstep nowOf] in *.
  - unfold tickCore in I. destruct (l_waiting (mo_parent m)) eqn:W.
    + destruct (PA now I eq_refl) as (-> & E & B). eauto.
    + destruct (e_connected e && e_hasId e); [destruct (e_higher e); cbn in I; [destruct I as [<-|[]]; destruct p; discriminate L|destruct I]|].
      destruct (e_connected e); [destruct I as [<-|[]]; destruct p; discriminate L|]. destruct (await_nolost _ _ _ _ I L).
  - assert (CO : In o (flat_map (connOut now m) (mo_conns m)) -> exists t, (match p with Parent => linkSince (mo_parent m) | Sub id => connSince id (mo_conns m) end) = Some t /\ mo_timeout m < now - t).
    { intros IC. apply in_flat_map in IC as (c & IC & OC). unfold connOut in OC. destruct (l_waiting c) eqn:WC; [|destruct OC]. destruct OC as [<-|[]]. destruct (Z.ltb_spec (mo_timeout m) (now - l_last c)); destruct p; try discriminate L. injection L as <-.
      rewrite connSince_in by assumption. unfold linkSince. rewrite WC. eauto. }
    assert (O1 : In o (if negb (e_root e) && l_waiting (mo_parent m) then [if mo_timeout m <? now - l_last (mo_parent m) then LostParent else PingParentAgain] else []) -> exists t, (match p with Parent => linkSince (mo_parent m) | Sub id => connSince id (mo_conns m) end) = Some t /\ mo_timeout m < now - t).
    { intros IO. destruct (l_waiting (mo_parent m)) eqn:W; [|rewrite andb_false_r in IO; destruct IO]. destruct (negb (e_root e)); [|destruct IO]. cbn [andb] in IO. destruct (PA now IO eq_refl) as (-> & E & B). eauto. }
    unfold tickBroker in I. destruct (l_waiting (mo_parent m) || existsb l_waiting (mo_conns m)).
    + cbn [snd] in I. apply in_app_iff in I as [I|I]; auto.
    + match type of I with context [let '(m', o3) := ?x in _] => destruct x as [m' o3] eqn:E3 end. cbn [snd] in I. apply in_app_iff in I as [I|I]; [auto|]. apply in_app_iff in I as [I|I]; [auto|]. exfalso.
      destruct (e_root e); [apply (pingSub_nolost now subs m p o); [rewrite E3; exact I|exact L]|]. destruct (e_connected e && e_hasId e).
      * destruct (e_higher e); injection E3 as <- <-; [destruct I as [<-|[]]; destruct p; discriminate L|destruct I].
      * apply (await_nolost now m p o); [rewrite E3; exact I|exact L].
  - destruct (pingSub_nolost _ _ _ _ _ I L).
  - unfold pingReply in I. destruct (_ =? _); [destruct I|]. cbn [snd] in I. destruct (_ && _); [|destruct I]. destruct I as [<-|[]]. destruct p; discriminate L.
  - destruct I.
  - destruct I.
  - destruct I.
  - destruct I.
Qed.

(** ** C32 *)
(** The parent, a core or a broker is declared lost only when a ping to it has been unanswered for more than the
    timeout. *)
Theorem C32_lost_only_after_timeout es e p o : In o (outputsOf es e) -> isLost p o ->
  exists t, unansweredSince p es = Some t /\ timeoutOf es < nowOf e - t.
Proof.
  intros I L. destruct (monitor_agrees es) as [P S C N]. destruct (lost_records _ _ _ _ N I L) as (t & E & B). rewrite mafter_timeout in B. exists t. split; [|exact B]. unfold unansweredSince. destruct p; [rewrite S; exact E|rewrite C; exact E].
Qed.
(** A peer silent for more than the timeout is declared lost at the next tick: the parent by a core, the parent by a
    broker, and what is connected to a broker. *)
Theorem C32_silent_parent_reported_by_core es now e t : unansweredSince Parent es = Some t -> timeoutOf es < now - t ->
  In LostParent (outputsOf es (TickCore now e)).
Proof.
  intros U B. destruct (monitor_agrees es) as [_ S _ _]. unfold unansweredSince in U. rewrite S in U. unfold linkSince in U. unfold outputsOf. cbn [mstep]. unfold tickCore. destruct (l_waiting (mo_parent (mafter es))); [|discriminate]. injection U as U. rewrite mafter_timeout, U.
  replace (timeoutOf es <? now - t) with true by lia. left. reflexivity.
Qed.
Theorem C32_silent_parent_reported_by_broker es now e subs t : e_root e = false -> unansweredSince Parent es = Some t -> timeoutOf es < now - t ->
  In LostParent (outputsOf es (TickBroker now e subs)).
Proof.
  intros R U B. destruct (monitor_agrees es) as [_ S _ _]. unfold unansweredSince in U. rewrite S in U. unfold linkSince in U. unfold outputsOf. cbn [mstep]. unfold tickBroker. rewrite R. destruct (l_waiting (mo_parent (mafter es))) eqn:W; [|discriminate]. injection U as U. rewrite mafter_timeout, U.
  replace (timeoutOf es <? now - t) with true by lia. left. reflexivity.
Qed.
Theorem C32_silent_connection_reported es now e subs id t : unansweredSince (Sub id) es = Some t -> timeoutOf es < now - t ->
  In (LostConn id) (outputsOf es (TickBroker now e subs)).
Proof.
  intros U B. destruct (monitor_agrees es) as [_ _ C _]. unfold unansweredSince in U. rewrite C in U. apply connSince_some in U as (c & I & E & W & L). unfold outputsOf. cbn [mstep]. unfold tickBroker.
  assert (IO : In (LostConn id) (flat_map (connOut now (mafter es)) (mo_conns (mafter es)))).
  { apply in_flat_map. exists c. split; [exact I|]. unfold connOut. rewrite W, L, E, mafter_timeout. replace (timeoutOf es <? now - t) with true by lia. left. reflexivity. }
  replace (existsb l_waiting (mo_conns (mafter es))) with true by (symmetry; apply existsb_exists; exists c; auto). rewrite orb_true_r. cbn [snd]. apply in_app_iff. right. exact IO.
Qed.
(** any reply resets the wait *)
Definition parentOf (es : list mevent) : Z := fold_left (fun p e => match e with SetParent id => id | _ => p end) es 0.
Lemma parentOf_history p es : fst (history p (mtrace initMon es)) = parentOf es.
Proof.
  induction es as [|e es IH] using rev_ind; [reflexivity|]. rewrite mtrace_snoc, history_snoc. unfold parentOf. rewrite fold_left_app. cbn [fold_left]. fold (parentOf es). rewrite <- IH. destruct (history p (mtrace initMon es)) as [pid s]. destruct e; reflexivity.
Qed.
Theorem C32_reply_resets_wait es src b p : (p = Parent /\ src = parentOf es) \/ (p = Sub src /\ src <> parentOf es) -> unansweredSince p (es ++ [Reply src b]) = None.
Proof.
  intros H. unfold unansweredSince. rewrite mtrace_snoc, history_snoc. pose proof (parentOf_history p es) as HP. destruct (history p (mtrace initMon es)) as [pid s]. cbn [sinceStep fst snd] in *. subst pid.
  destruct H as [[-> ->]|[-> N]]; cbn [answers]; rewrite Z.eqb_refl; [reflexivity|]. replace (src =? parentOf es) with false by lia. reflexivity.
Qed.
Definition calm : env := mkEnv false true true true.
Definition rootEnv : env := mkEnv true true true true.
Example C32_nonvacuous :
  unansweredSince Parent [SetTimeout 10; SetParent 7; TickCore 100 calm; TickCore 105 calm] = Some 100 /\
  outputsOf [SetTimeout 10; SetParent 7; TickCore 100 calm; TickCore 105 calm] (TickCore 111 calm) = [LostParent] /\
  outputsOf [SetTimeout 10; SetParent 7; TickCore 100 calm; Reply 7 false] (TickCore 111 calm) = [PingParent] /\
  outputsOf [SetTimeout 10; TickBroker 100 rootEnv [mkSub 5 true false; mkSub 6 true false]; Reply 5 true] (TickBroker 111 rootEnv []) = [LostConn 6].
Proof. repeat split; vm_compute; reflexivity. Qed.
(** Disabling the ping of the parent (a parent which answers slowly) has no effect: it is pinged at the next tick and
    declared lost like any other. *)
Theorem C32_disabled_parent_declared_lost_refuted :
  exists es e, ~ In (DisableParent false) es /\ In (DisableParent true) es /\ In LostParent (outputsOf es e).
Proof.
  exists [SetTimeout 10; SetParent 7; DisableParent true; Reset; TickCore 100 calm], (TickCore 111 calm). split; [intros I; repeat destruct I as [I|I]; try discriminate I; destruct I|]. split; [right; right; left; reflexivity|]. vm_compute. left. reflexivity.
Qed.
(** The ticks asked for while pings are outstanding are not delivered when other commands arrive: with at least one
    command between any two ticks no tick at all reaches the monitor. *)
Theorem C32_busy_loop_delivers_no_tick_refuted n s : t_forward s = true ->
  ticksDelivered s (concat (repeat [Command; Tick] n)) = 0 \/ t_since s < 0.
Proof.
  intros F. destruct (Z.lt_ge_cases (t_since s) 0) as [L|L]; [right; exact L|left]. revert s F L. induction n as [|n IH]; intros s F L; [reflexivity|]. cbn [repeat concat app ticksDelivered loopStep fst snd t_since t_forward]. replace (t_since s + 1 =? 0) with false by lia. rewrite IH; cbn; auto; lia.
Qed.
Example C32_busy_loop_nonvacuous : ticksDelivered (mkTick 0 true) [Forwarding true; Tick; Command; Tick; Command; Tick] = 0 /\ ticksDelivered (mkTick 0 true) [Tick] = 1.
Proof. split; reflexivity. Qed.

(** ** C41: error states of brokers and cores *)
Definition isErrorState (s : Z) : Prop := s = BS_CONNECTED_ERROR \/ s = BS_TERMINATING_ERROR \/ s = BS_ERRORED.
(** conditional transitions are never made from an error state (all callers: CoreBroker.cpp:2399-2482,
    CommonCore.cpp:144-197, 3299, 4673-4946) *)
Definition fromHealthy (e : bevent) : Prop := match e with Transition x _ => ~ isErrorState x | _ => True end.
Definition brun (es : list bevent) (s : Z) : Z := fold_left bstep es s.
Lemma bstep_error s e : isErrorState s -> fromHealthy e -> isErrorState (bstep s e) /\ s <= bstep s e.
Proof.
  unfold isErrorState, fromHealthy. intros E F. destruct e as [new|x new| |]; cbn [bstep].
  - unfold setBrokerState, nextState. unfold BS_CONNECTED_ERROR, BS_TERMINATING_ERROR, BS_ERRORED, BS_TERMINATING, BS_TERMINATED, BS_CONNECTING in *.
    destruct E as [->|[->| ->]]; destruct (Z.eqb_spec new 4), (Z.eqb_spec new 6), (Z.eqb_spec new 7); subst; cbn in *; try lia.
  - unfold transitionBrokerState. destruct (Z.eqb_spec s x) as [->|N]; [contradiction|]. split; [exact E|lia].
  - unfold setErrorState, BS_CONNECTED_ERROR, BS_TERMINATING_ERROR, BS_ERRORED, BS_CONFIGURED, BS_TERMINATING in *. destruct E as [->|[->| ->]]; cbn; lia.
  - unfold BS_CONNECTED_ERROR, BS_TERMINATING_ERROR, BS_ERRORED in *. split; [auto|lia].
Qed.
(** once in error, always in error, and only forward: connected, terminating, errored *)
Theorem C41_error_is_permanent es s : isErrorState s -> Forall fromHealthy es -> isErrorState (brun es s) /\ s <= brun es s.
Proof.
  intros E F. revert s E. induction F as [|e es H _ IH]; intros s E; [split; [exact E|apply Z.le_refl]|]. destruct (bstep_error s e E H) as [E1 L1]. destruct (IH _ E1) as [E2 L2]. split; [exact E2|]. change (brun (e :: es) s) with (brun es (bstep s e)). lia.
Qed.
(** every report of an error leads into an error state *)
Theorem C41_error_recorded s e : e = SetError \/ e = SetState BS_ERRORED \/ e = MonitorLost -> isErrorState (bstep s e).
Proof.
  unfold isErrorState. intros [->|[->| ->]]; cbn [bstep]; [| |auto].
  - unfold setErrorState. destruct (Z.eqb_spec s BS_ERRORED); destruct (Z.eqb_spec s BS_CONNECTED_ERROR); cbn [negb andb]; auto. destruct (_ && _); auto.
  - unfold setBrokerState, nextState. destruct (Z.eqb_spec s BS_ERRORED); [cbn; auto|]. destruct (Z.eqb_spec s BS_CONNECTED_ERROR); [cbn; auto|]. destruct (Z.eqb_spec s BS_TERMINATING_ERROR); [cbn; auto|]. destruct (_ && _ && _); cbn; auto.
Qed.
(** terminating a broker in error ends in ERRORED, not TERMINATED *)
Theorem C41_termination_keeps_error s : isErrorState s -> brun [SetState BS_TERMINATING; SetState BS_TERMINATED] s = BS_ERRORED.
Proof. intros [->|[->| ->]]; reflexivity. Qed.
Example C41_nonvacuous : isErrorState (brun [Transition BS_CREATED BS_CONFIGURING; SetState BS_CONFIGURED; Transition BS_CONFIGURED BS_CONNECTING; SetState BS_CONNECTED; SetError; SetState BS_OPERATING; SetState BS_TERMINATING; SetState BS_TERMINATED] BS_CREATED).
Proof. vm_compute. auto. Qed.
(** The state is read and written separately: an error set by another thread between the two is overwritten. *)
Theorem C41_error_lost_in_race_refuted : exists s t, fst (fold_left astep [Load t; Whole SetError; Store t BS_OPERATING] (s, fun _ => s)) = BS_OPERATING /\ isErrorState (setErrorState s).
Proof. exists BS_CONNECTED, 0%nat. split; [reflexivity|]. vm_compute. auto. Qed.
