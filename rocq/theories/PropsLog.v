(** C34: the log buffer keeps exactly the most recent messages. *)
From Coq Require Import ZArith List Lia Bool.
From Verif Require Import LogBuf.
Import ListNotations.

(** ** Specification *)
(** the messages logged, in order *)
Fixpoint logged {A} (cs : list (call A)) : list A :=
  match cs with [] => [] | Push x :: r => x :: logged r | _ :: r => logged r end.
(** the size asked for by the last resize or enable; enable(true) keeps a size that is not 0 *)
Fixpoint configured {A} (n : nat) (cs : list (call A)) : nat :=
  match cs with
  | [] => n
  | Push _ :: r => configured n r
  | Resize k :: r => configured k r
  | Enable true :: r => configured (match n with O => 10 | _ => n end) r
  | Enable false :: r => configured 0 r
  end.
(** message number [i] was at every moment since it was logged among the [configured] newest ones *)
Definition recent {A} (n : nat) (cs : list (call A)) (i : nat) : Prop :=
  forall q r, cs = q ++ r -> i < length (logged q) -> length (logged q) - i <= configured n q.

Section Proofs.
Context {A : Type}.
Implicit Types cs : list (call A).

Lemma trim_spec n (l : list A) : trim n l = skipn (length l - n) l.
Proof.
  induction l as [|x l IH]; [reflexivity|]. cbn [trim length].
  destruct (Nat.ltb_spec n (S (length l))).
  - rewrite IH. replace (S (length l) - n) with (S (length l - n)) by lia. reflexivity.
  - replace (S (length l) - n) with 0 by lia. reflexivity.
Qed.
Lemma logged_app cs ds : logged (cs ++ ds) = logged cs ++ logged ds.
Proof. induction cs as [|[] cs IH]; cbn; try rewrite IH; auto. Qed.
Lemma configured_app n cs ds : configured n (cs ++ ds) = configured (configured n cs) ds.
Proof. revert n. induction cs as [|[x|k|[]] cs IH]; intros; cbn; auto. Qed.
Lemma lrun_app (b : buf A) cs ds : lrun b (cs ++ ds) = match lrun b cs with Some b' => lrun b' ds | None => None end.
Proof. revert b. induction cs as [|c cs IH]; intros; cbn; auto. destruct (lstep b c); auto. Qed.
Lemma recent_snoc n cs c i : recent n (cs ++ [c]) i <->
  recent n cs i /\ (i < length (logged (cs ++ [c])) -> length (logged (cs ++ [c])) - i <= configured n (cs ++ [c])).
Proof.
  split.
  - intros R. split; [|apply (R (cs ++ [c]) []); now rewrite app_nil_r].
    intros q r E. apply (R q (r ++ [c])). now rewrite E, app_assoc.
  - intros [R L] q r E. destruct r as [|y r] using rev_ind.
    + rewrite app_nil_r in E. subst q. exact L.
    + rewrite app_assoc in E. apply app_inj_tail in E. destruct E as [E _]. now apply (R q r).
Qed.
Definition good (n : nat) cs (b : buf A) : Prop :=
  lb_max b = configured n cs /\ length (lb_msgs b) <= lb_max b /\
  lb_msgs b = skipn (length (logged cs) - length (lb_msgs b)) (logged cs) /\
  (forall i, i < length (logged cs) -> (length (logged cs) - length (lb_msgs b) <= i <-> recent n cs i)).
Lemma good_len n cs b : good n cs b -> length (lb_msgs b) <= length (logged cs).
Proof. intros (_ & _ & E & _). apply (f_equal (@length _)) in E. rewrite skipn_length in E. lia. Qed.
Lemma skipn_skipn' {B} a b (l : list B) : skipn a (skipn b l) = skipn (b + a) l.
Proof. revert l. induction b as [|b IH]; intros [|x l]; cbn; auto. now destruct a. Qed.
Lemma good_resize n k cs c (b : buf A) : logged (cs ++ [c]) = logged cs -> configured n (cs ++ [c]) = k ->
  good n cs b -> good n (cs ++ [c]) (resize k b).
Proof.
  intros El Ec G. pose proof (good_len _ _ _ G) as Ln. destruct G as (M & L & E & R). unfold good, resize. cbn [lb_max lb_msgs].
  rewrite El, Ec. set (t := length (logged cs)) in *. set (m := length (lb_msgs b)) in *.
  assert (T : (if k <? lb_max b then trim k (lb_msgs b) else lb_msgs b) = skipn (m - k) (lb_msgs b)).
  { destruct (Nat.ltb_spec k (lb_max b)); [apply trim_spec|]. replace (m - k) with 0 by lia. reflexivity. }
  rewrite T, skipn_length. fold m. repeat split; try lia.
  - rewrite E at 1. rewrite skipn_skipn'. f_equal. lia.
  - rewrite recent_snoc, El, Ec. fold t. intros. split; [apply R; lia|lia].
  - rewrite recent_snoc, El, Ec. fold t. intros [Q1 Q2]. apply R in Q1; [|assumption]. specialize (Q2 H). lia.
Qed.
Lemma good_push n cs x (b : buf A) : good n cs b -> exists b', push x b = Some b' /\ good n (cs ++ [Push x]) b'.
Proof.
  intros G. pose proof (good_len _ _ _ G) as Ln. destruct G as (M & L & E & R).
  assert (El : logged (cs ++ [Push x]) = logged cs ++ [x]) by now rewrite logged_app.
  assert (Ec : configured n (cs ++ [Push x]) = configured n cs) by now rewrite configured_app.
  unfold push. destruct (Nat.eqb_spec (lb_max b) 0) as [Z0|NZ].
  - exists b. split; [reflexivity|]. unfold good. rewrite Ec, El, app_length. cbn [length].
    assert (E0 : lb_msgs b = []) by (destruct (lb_msgs b); [auto|cbn in L; lia]). rewrite E0 in *. cbn [length].
    repeat split; try lia.
    + rewrite skipn_all2; auto. rewrite app_length. cbn. lia.
    + intros Q. apply recent_snoc in Q. destruct Q as [_ Q]. rewrite El, Ec, app_length in Q. cbn in Q. specialize (Q H). lia.
  - set (t := length (logged cs)) in *.
    assert (P : exists l, pushLocked (lb_max b) x (lb_msgs b) = Some l /\ l = skipn (length (lb_msgs b) + 1 - lb_max b) (lb_msgs b) ++ [x]).
    { unfold pushLocked. destruct (Nat.eqb_spec (length (lb_msgs b)) (lb_max b)) as [Q|Q].
      - destruct (lb_msgs b) as [|y r]; [cbn in Q; lia|]. eexists. split; [reflexivity|]. rewrite Q. replace (lb_max b + 1 - lb_max b) with 1 by lia. reflexivity.
      - eexists. split; [reflexivity|]. replace (length (lb_msgs b) + 1 - lb_max b) with 0 by lia. reflexivity. }
    destruct P as (l & P & D). rewrite P. eexists. split; [reflexivity|]. unfold good. cbn [lb_max lb_msgs]. rewrite Ec, El.
    set (m := length (lb_msgs b)) in *. set (k := m + 1 - lb_max b) in *.
    assert (Ll : length l = m - k + 1) by (rewrite D, app_length, skipn_length; cbn; fold m; lia).
    rewrite Ll, !app_length. cbn [length]. fold t. repeat split; try lia.
    + rewrite D at 1. rewrite E at 1. rewrite skipn_skipn'. rewrite skipn_app. fold t. f_equal; [f_equal; lia|].
      replace (t + 1 - (m - k + 1) - t) with 0 by lia. reflexivity.
    + rewrite recent_snoc, El, Ec, app_length. fold t. cbn [length]. intros Q. split; [|lia].
      destruct (Nat.eq_dec i t) as [->|N]; [|apply R; lia].
      intros q r Eq Lq. exfalso. assert (length (logged cs) = length (logged q) + length (logged r)) by now rewrite Eq, logged_app, app_length. fold t in H0; lia.
    + rewrite recent_snoc, El, Ec, app_length. fold t. cbn [length]. intros [Q1 Q2]. specialize (Q2 H).
      destruct (Nat.eq_dec i t) as [->|N]; [lia|]. apply R in Q1; lia.
Qed.
Lemma good_run n cs : exists b, lrun (lb_new A n) cs = Some b /\ good n cs b.
Proof.
  induction cs as [|c cs IH] using rev_ind.
  - eexists. split; [reflexivity|]. unfold good. cbn. repeat split; try lia.
  - destruct IH as (b & E & G). rewrite lrun_app, E. cbn [lrun].
    assert (P : exists b', lstep b c = Some b' /\ good n (cs ++ [c]) b').
    { destruct c as [x|k|[]]; cbn [lstep].
      - now apply good_push.
      - eexists. split; [reflexivity|]. apply good_resize; auto; [now rewrite logged_app, app_nil_r|now rewrite configured_app].
      - eexists. split; [reflexivity|]. unfold enable. pose proof (proj1 G) as M.
        destruct (Nat.eqb_spec (lb_max b) 0) as [Z0|NZ].
        + apply good_resize; auto; [now rewrite logged_app, app_nil_r|]. rewrite configured_app, <- M, Z0. reflexivity.
        + assert (El : logged (cs ++ [Enable true]) = logged cs) by (rewrite logged_app; apply app_nil_r).
          assert (Ec : configured n (cs ++ [Enable true]) = lb_max b) by (rewrite configured_app, <- M; cbn; destruct (lb_max b); [lia|reflexivity]).
          pose proof (good_len _ _ _ G) as Ln. destruct G as (_ & L & Eq & R). unfold good. rewrite Ec, El. repeat split; auto.
          * intros Q. apply recent_snoc. rewrite El, Ec. split; [now apply R|lia].
          * intros Q. apply recent_snoc in Q. now apply R.
      - eexists. split; [reflexivity|]. apply good_resize; auto; [now rewrite logged_app, app_nil_r|now rewrite configured_app]. }
    destruct P as (b' & -> & P). eauto.
Qed.

(** ** The property.  Whatever is logged and however the buffer is resized, enabled or disabled: no call fails; the
    retrievable messages are the newest ones in order; never more than configured; and a message is retrievable exactly
    when at every moment since it was logged it was among the [configured] newest. *)
Theorem C34_keeps_most_recent n cs : exists b, lrun (lb_new A n) cs = Some b /\
  let got := process b in let all := logged cs in
  got = skipn (length all - length got) all /\
  length got <= configured n cs /\
  forall i, i < length all -> (length all - length got <= i <-> recent n cs i).
Proof. destruct (good_run n cs) as (b & E & G). exists b. split; [assumption|]. destruct G as (M & L & Eq & R). cbn. unfold process. repeat split; auto; [lia|apply R; auto|apply R; auto]. Qed.
(** when the size is fixed these are the last [n] messages *)
Lemma configured_pushes n (ms : list A) : configured n (map Push ms) = n.
Proof. induction ms; cbn; auto. Qed.
Lemma logged_pushes (ms : list A) : logged (map Push ms) = ms.
Proof. induction ms; cbn; f_equal; auto. Qed.
Theorem C34_fixed_size n (ms : list A) : exists b, lrun (lb_new A n) (map Push ms) = Some b /\ process b = skipn (length ms - n) ms.
Proof.
  destruct (C34_keeps_most_recent n (map Push ms)) as (b & E & G & L & R). exists b. split; [assumption|].
  rewrite logged_pushes, configured_pushes in *. cbn zeta in *.
  assert (Le : length (process b) <= length ms) by (apply (f_equal (@length _)) in G; rewrite skipn_length in G; lia).
  destruct (Nat.eq_dec (length (process b)) (min n (length ms))) as [Q|Q].
  - rewrite G, Q. f_equal. lia.
  - exfalso. assert (H : recent n (map Push ms) (length ms - length (process b) - 1)).
    { intros q r Eq _. assert (Ex : exists q', q = map Push q').
      { clear -Eq. revert r ms Eq. induction q as [|c q IH]; intros; [now exists []|]. destruct ms as [|x ms]; [discriminate|]. cbn in Eq. injection Eq as <- Eq.
        destruct (IH _ _ Eq) as [q' ->]. exists (x :: q'). reflexivity. }
      destruct Ex as [q' ->]. rewrite logged_pushes, configured_pushes.
      assert (length q' <= length ms). { apply (f_equal (@length _)) in Eq. rewrite app_length, !map_length in Eq. lia. } lia. }
    apply R in H; lia.
Qed.
End Proofs.
(** a run with a resize in each direction *)
Example C34_nonvacuous : lrun (lb_new nat 3) [Push 1; Push 2; Push 3; Push 4; Resize 2; Push 5; Resize 4; Push 6; Push 7] = Some (mkBuf 4 [4; 5; 6; 7]) /\
  recent 3 [Push 1; Push 2; Push 3] 0.
Proof.
  split; [reflexivity|]. intros q r E L.
  destruct q as [|c1 [|c2 [|c3 [|c4 q]]]]; inversion E; subst; cbn in *; lia.
Qed.

(** ** Several threads.  The class is documented as thread safe (LogBuffer.hpp:22), but the limit is read and written
    outside the lock, and both halves of the claim fail when a resize overlaps a push. *)
(** a message logged while the buffer is being made smaller makes it grow without bound: for every [k] there is a run at
    whose end no call is active, the configured size is 2 and more than [k] messages are held *)
Definition pushNow {A} (x : A) : list (choice A) := [StartPush 1 x; Continue 1].
Fixpoint many {A} (k : nat) (x : A) : list (choice A) := match k with O => [] | S k => pushNow x ++ many k x end.
Lemma trun_app {A} (s : shared A) cs ds : trun s (cs ++ ds) = match trun s cs with Fine s' => trun s' ds | Broken => Broken end.
Proof. revert s. induction cs as [|c cs IH]; intros; cbn; auto. destruct (tstep s c); auto. Qed.
Lemma many_grow {A} k (x : A) : forall l f, f 1 = Idle -> (forall t, f t = Idle) -> 2 < length l -> exists f',
  trun (mkSh (mkBuf 2 l) f) (many k x) = Fine (mkSh (mkBuf 2 (l ++ repeat x k)) f') /\ forall t, f' t = Idle.
Proof.
  induction k as [|k IH]; intros l f I1 I L.
  - exists f. cbn. now rewrite app_nil_r.
  - cbn [many]. rewrite trun_app. cbn. rewrite I1. cbn. unfold upd at 1. cbn.
    unfold pushLocked. destruct (Nat.eqb_spec (length l) 2) as [Q|_]; [lia|].
    edestruct (IH (l ++ [x])) as (f' & E & I'); [| |rewrite app_length; cbn; lia|].
    3:{ exists f'. rewrite E. rewrite <- app_assoc. auto. }
    + reflexivity.
    + intros t. unfold upd. destruct (t =? 1); auto.
Qed.
Theorem C34_concurrent_resize_refuted : forall k, exists cs s, trun (tnew nat 5) cs = Fine s /\ (forall t, sh_threads s t = Idle) /\ lb_max (sh_buf s) = 2 /\ k < length (lb_msgs (sh_buf s)).
Proof.
  intros k.
  set (cs := pushNow 1 ++ pushNow 2 ++ pushNow 3 ++ [StartResize 0 2; Continue 0] ++ pushNow 4 ++ [Continue 0]).
  assert (E : exists f, trun (tnew nat 5) cs = Fine (mkSh (mkBuf 2 [2; 3; 4]) f) /\ forall t, f t = Idle).
  { eexists. split; [vm_compute; reflexivity|]. intros [|[|t]]; reflexivity. }
  destruct E as (f & E & I). destruct (many_grow k 9 [2; 3; 4] f) as (f' & E' & I'); auto.
  exists (cs ++ many k 9). eexists. rewrite trun_app, E, E'. split; [reflexivity|]. cbn. split; [assumption|]. split; [reflexivity|]. rewrite repeat_length. lia.
Qed.
(** disabling the buffer between the check and the lock of a push makes the push remove from an empty deque *)
Theorem C34_concurrent_disable_refuted : exists cs, trun (tnew nat 1) cs = Broken.
Proof. exists [StartPush 1 7; StartResize 0 0; Continue 0; Continue 0; Continue 1]. reflexivity. Qed.
