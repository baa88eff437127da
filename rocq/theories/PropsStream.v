(** * C40: commands sent over a byte stream *)
From Coq Require Import ZArith Bool List Lia ZifyBool.
From Verif Require Import HTime Action Codec CodecProofs CodecSafe PropsCodec.
Import ListNotations.
Open Scope Z_scope.

Section Stream.
Variable json : amsg -> list Z -> amsg * bool.
Variables (h1 h2 : bool) (m0 : amsg).
Hypothesis FRESH : m_payload m0 = [].
Definition sendable (m : amsg) : Prop := wire m /\ 4 + serializedByteCount m < 16777216.

(** the beginning of a packet is not taken for a command *)
Lemma part_not_taken m q r : sendable m -> packetize h1 m = q ++ r -> q <> [] -> r <> [] -> depacketize json h2 m0 q = Done m0 0.
Proof.
  intros [W L] E Q R. unfold packetize in E. rewrite packetizeIn_frame in E by (right; reflexivity). set (sub := full h1 m) in *.
  assert (SL : 4 + len sub < 16777216) by (unfold sub; rewrite full_len; exact L). clearbody sub. pose proof (len_nonneg sub) as SN.
  assert (FL : len sub + 6 = len q + len r) by (rewrite <- (frame_len sub), E, len_app; reflexivity).
  assert (RP : 0 < len r) by (destruct r; [contradiction|rewrite len_cons; pose proof (len_nonneg r); lia]).
  unfold depacketize, depackWith. pose proof (sizeBytes_val (4 + len sub) ltac:(lia)) as SV. unfold frame, sizeBytes in E.
  set (v1 := ((4 + len sub) / 65536) mod 256) in *. set (v2 := ((4 + len sub) / 256) mod 256) in *. set (v3 := (4 + len sub) mod 256) in *. clearbody v1 v2 v3.
  cbn [app] in E. destruct q as [|c0 q]; [contradiction|]. cbn [app] in E. injection E as <- E. cbn [nth_error bind]. rewrite Z.eqb_refl. cbn [negb].
  destruct (Z.ltb_spec (len (LEAD :: q)) 6) as [S6|S6]; [reflexivity|].
  destruct q as [|c1 [|c2 [|c3 q]]]; try (unfold len in S6; cbn [length] in S6; lia). cbn [app] in E. injection E as <- <- <- E. cbn [nth_error bind].
  replace ((v1 * 256 + v2) * 256 + v3) with (4 + len sub) by lia. replace (len (LEAD :: v1 :: v2 :: v3 :: q) <? 4 + len sub + 2) with true by lia. reflexivity.
Qed.
Lemma packet_pos m : 0 < len (packetize h1 m).
Proof. unfold packetize. rewrite C21_packet_size. pose proof (sbc_pos m). lia. Qed.
(** what may be left over: nothing, or the beginning of a packet of [ms] *)
Definition begins (q : list Z) (ms : list amsg) : Prop := q = [] \/ exists m ms' r, ms = m :: ms' /\ packetize h1 m = q ++ r /\ r <> [].

Lemma loop_takes fuel ms : forall q later, Forall sendable (ms ++ later) -> begins q later -> (length (flat_map (packetize h1) ms ++ q) < fuel)%nat ->
  receiveLoop json fuel h2 m0 (flat_map (packetize h1) ms ++ q) = Some (map (arrives h1 h2) ms, len (flat_map (packetize h1) ms)).
Proof.
  revert ms. induction fuel as [|k IH]; intros ms q later F B L; [lia|]. destruct ms as [|m ms].
  - cbn [flat_map app map]. cbn [receiveLoop]. destruct q as [|c q]; [reflexivity|]. destruct B as [B|(m & ms' & r & -> & E & R)]; [discriminate|]. inversion_clear F as [|? ? S _].
    rewrite (part_not_taken m (c :: q) r S E) by (auto; discriminate). reflexivity.
  - cbn [flat_map map] in *. inversion_clear F as [|? ? S F']. rewrite <- app_assoc in *. set (rest := flat_map (packetize h1) ms ++ q) in *.
    pose proof (packet_pos m) as PP. cbn [receiveLoop]. destruct (packetize h1 m ++ rest) as [|c t] eqn:E.
    { apply (f_equal len) in E. rewrite len_app in E. pose proof (len_nonneg rest). change (len (@nil Z)) with 0 in E. lia. }
    rewrite <- E. rewrite packet_read by (apply S || exact FRESH). replace (len (packetize h1 m) =? 0) with false by lia.
    replace (skipn (Z.to_nat (len (packetize h1 m))) (packetize h1 m ++ rest)) with rest.
    2:{ unfold len. rewrite Nat2Z.id, skipn_app, skipn_all, Nat.sub_diag. reflexivity. }
    unfold rest at 1. rewrite (IH ms q later); auto.
    + rewrite len_app. reflexivity.
    + rewrite <- E in L. rewrite app_length in L. fold rest. unfold len in PP. lia.
Qed.
(** every beginning of the stream is some whole packets and the beginning of the next *)
Lemma split_stream ms : forall p r, flat_map (packetize h1) ms = p ++ r ->
  exists ms1 ms2 q, ms = ms1 ++ ms2 /\ p = flat_map (packetize h1) ms1 ++ q /\ begins q ms2 /\ flat_map (packetize h1) ms2 = q ++ r.
Proof.
  induction ms as [|m ms IH]; intros p r E.
  - cbn in E. symmetry in E. apply app_eq_nil in E as [-> ->]. exists [], [], []. repeat split. left. reflexivity.
  - cbn [flat_map] in E. destruct (Nat.le_gt_cases (length (packetize h1 m)) (length p)) as [L|L].
    + assert (S : exists p', p = packetize h1 m ++ p' /\ flat_map (packetize h1) ms = p' ++ r).
      { revert p L E. generalize (packetize h1 m). intros x. induction x as [|c x IHx]; intros p L E; [exists p; auto|]. destruct p as [|d p]; [cbn in L; lia|]. cbn [app] in E. injection E as -> E. cbn [length] in L.
        destruct (IHx p ltac:(lia) E) as (p' & -> & E'). exists p'. auto. }
      destruct S as (p' & -> & E'). destruct (IH p' r E') as (ms1 & ms2 & q & -> & -> & B & E2). exists (m :: ms1), ms2, q. cbn [app flat_map]. rewrite <- app_assoc. auto.
    + exists [], (m :: ms), p. cbn [app flat_map]. repeat split; auto. right.
      assert (S : exists t, packetize h1 m = p ++ t /\ t <> []).
      { revert p L E. generalize (packetize h1 m). intros x. induction x as [|c x IHx]; intros p L E; [cbn in L; lia|]. destruct p as [|d p]; [exists (c :: x); split; [reflexivity|discriminate]|]. cbn [app] in E. injection E as -> E. cbn [length] in L.
        destruct (IHx p ltac:(lia) E) as (t & -> & N). exists t. auto. }
      destruct S as (t & ET & N). exists m, ms, t. auto.
Qed.
Lemma chunks_take chunks : forall ms held r, Forall sendable ms -> flat_map (packetize h1) ms = (held ++ concat chunks) ++ r -> begins held ms ->
  exists ms1 ms2 q, ms = ms1 ++ ms2 /\ receiveChunks json h2 m0 held chunks = Some (map (arrives h1 h2) ms1, q) /\ begins q ms2 /\ held ++ concat chunks = flat_map (packetize h1) ms1 ++ q.
Proof.
  induction chunks as [|c chunks IH]; intros ms held r F E B.
  - exists [], ms, held. cbn [app receiveChunks concat map flat_map]. rewrite app_nil_r. auto.
  - cbn [receiveChunks concat] in *. rewrite app_assoc in E. rewrite <- app_assoc in E. destruct (split_stream ms (held ++ c) (concat chunks ++ r) E) as (ms1 & ms2 & q & -> & EP & B2 & E2).
    unfold dataReceive. rewrite EP. rewrite (loop_takes _ ms1 q ms2) by (auto; lia).
    replace (skipn (Z.to_nat (len (flat_map (packetize h1) ms1))) (flat_map (packetize h1) ms1 ++ q)) with q.
    2:{ unfold len. rewrite Nat2Z.id, skipn_app, skipn_all, Nat.sub_diag. reflexivity. }
    apply Forall_app in F as [_ F2]. rewrite app_assoc in E2. destruct (IH ms2 q r F2 E2 B2) as (ms3 & ms4 & q' & -> & R & B4 & EQ). rewrite R. exists (ms1 ++ ms3), ms4, q'. rewrite <- app_assoc, map_app. repeat split; auto.
    rewrite app_assoc, EP, <- app_assoc, EQ, flat_map_app, app_assoc. reflexivity.
Qed.
(** However the stream of packets is cut into pieces on its way, the commands come out complete and in the order
    sent, and no bytes are left. *)
Theorem C40_stream_gives_commands_in_order ms chunks : Forall sendable ms -> concat chunks = flat_map (packetize h1) ms ->
  receiveChunks json h2 m0 [] chunks = Some (map (arrives h1 h2) ms, []).
Proof.
  intros F E. destruct (chunks_take chunks ms [] []) as (ms1 & ms2 & q & -> & R & B & EQ); auto.
  { rewrite app_nil_r. cbn [app]. auto. } { left. reflexivity. }
  cbn [app] in EQ. rewrite E, flat_map_app in EQ. apply app_inv_head in EQ. destruct B as [->|(m & ms' & t & -> & EP & N)].
  - destruct ms2 as [|m ms2]; [rewrite app_nil_r; exact R|]. exfalso. cbn [flat_map] in EQ. apply (f_equal len) in EQ. rewrite len_app in EQ. pose proof (packet_pos m). pose proof (len_nonneg (flat_map (packetize h1) ms2)). change (len (@nil Z)) with 0 in EQ. lia.
  - exfalso. cbn [flat_map] in EQ. apply (f_equal len) in EQ. apply (f_equal len) in EP. rewrite len_app in EP, EQ. pose proof (len_nonneg (flat_map (packetize h1) ms')). destruct t; [contradiction|]. rewrite len_cons in EP. pose proof (len_nonneg t). lia.
Qed.
(** At every moment the commands handed over are those whose packets have arrived completely. *)
Theorem C40_no_command_before_its_packet ms chunks r : Forall sendable ms -> flat_map (packetize h1) ms = concat chunks ++ r ->
  exists ms1 ms2 q, ms = ms1 ++ ms2 /\ concat chunks = flat_map (packetize h1) ms1 ++ q /\
    receiveChunks json h2 m0 [] chunks = Some (map (arrives h1 h2) ms1, q) /\
    (q = [] \/ exists m ms' t, ms2 = m :: ms' /\ packetize h1 m = q ++ t /\ t <> []).
Proof. intros F E. destruct (chunks_take chunks ms [] r F E) as (ms1 & ms2 & q & EM & R & B & EQ); [left; reflexivity|]. exists ms1, ms2, q. auto. Qed.
End Stream.

Example C40_nonvacuous : Forall sendable [sample; blank] /\
  receiveChunks (fun m _ => (m, false)) true blank [] [firstn 3 (packetize true sample); skipn 3 (packetize true sample) ++ firstn 20 (packetize true blank); []; skipn 20 (packetize true blank)]
    = Some ([sample; blank], []).
Proof. split; [repeat constructor; try (apply sample_wire || apply blank_wire); vm_compute; reflexivity|vm_compute; reflexivity]. Qed.
