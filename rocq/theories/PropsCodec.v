(** * C20-C23, C40: the wire format, packets, arbitrary bytes, byte orders, the TCP stream *)
From Coq Require Import ZArith Bool List Lia ZifyBool.
From Verif Require Import HTime Action Codec CodecProofs CodecSafe.
Import ListNotations.
Open Scope Z_scope.

(** ** Encoding into buffers *)
Lemma resize_length n l : length (resize n l) = Z.to_nat n.
Proof. unfold resize. rewrite app_length, firstn_length, repeat_length. lia. Qed.
Lemma encode_len h m : len (encode h m) = serializedByteCount m - (if exactMax m then 4 else 0).
Proof. pose proof (full_len h m) as L. unfold full in L. rewrite len_app in L. destruct (exactMax m); [change (len [0; 0; 0; 0]) with 4 in L|change (len (@nil Z)) with 0 in L]; lia. Qed.
Lemma writeTo_len h m buf : len buf = serializedByteCount m -> len (writeTo h m buf) = serializedByteCount m.
Proof.
  intros L. unfold writeTo. rewrite len_app. pose proof (encode_len h m) as E. pose proof (len_nonneg (encode h m)).
  replace (length (encode h m)) with (Z.to_nat (len (encode h m))) by (unfold len; lia). rewrite len_skipn; destruct (exactMax m); lia.
Qed.
Lemma writeTo_short h m buf : exactMax m = false -> len buf = serializedByteCount m -> writeTo h m buf = full h m.
Proof.
  intros X L. unfold writeTo, full. rewrite X. f_equal. apply skipn_all2. pose proof (encode_len h m) as E. rewrite X in E. unfold len in *. lia.
Qed.
Lemma skipn_repeat {A} (x : A) n k : skipn k (repeat x n) = repeat x (n - k).
Proof. revert k. induction n as [|n IH]; intros [|k]; try reflexivity. cbn [repeat skipn Nat.sub]. apply IH. Qed.
Lemma writeTo_zero h m n : n = Z.to_nat (serializedByteCount m) -> writeTo h m (repeat 0 n) = full h m.
Proof.
  intros ->. unfold writeTo, full. f_equal. rewrite skipn_repeat. pose proof (encode_len h m) as E. destruct (exactMax m).
  - replace (Z.to_nat (serializedByteCount m) - length (encode h m))%nat with 4%nat by (unfold len in E; lia). reflexivity.
  - replace (Z.to_nat (serializedByteCount m) - length (encode h m))%nat with 0%nat by (unfold len in E; lia). reflexivity.
Qed.
Lemma sbc_pos m : 0 <= serializedByteCount m.
Proof. rewrite <- (full_len true m). apply len_nonneg. Qed.
Lemma sbc_base m : baseSize <= serializedByteCount m.
Proof.
  unfold serializedByteCount. destruct (_ =? _); [unfold baseSize; lia|]. change (fold_right (fun s n => 4 + len s + n) 0 (m_strings m)) with (strBytes (m_strings m)).
  pose proof (strBytes_nonneg (m_strings m)). pose proof (len_nonneg (m_payload m)). destruct (_ <=? _); lia.
Qed.
Lemma toStringIn_full h m old : exactMax m = false \/ old = [] -> toStringIn h m old = full h m.
Proof.
  pose proof (sbc_pos m). intros [X| ->]; unfold toStringIn.
  - apply writeTo_short; [exact X|]. unfold len. rewrite resize_length. lia.
  - unfold resize. rewrite firstn_nil. cbn [app length]. apply writeTo_zero. lia.
Qed.
Lemma packetizeIn_frame h m old : exactMax m = false \/ old = [] -> packetizeIn h m old = frame (full h m).
Proof.
  pose proof (sbc_pos m). intros X. unfold packetizeIn, frame. rewrite full_len.
  assert (L : len (resize (4 + serializedByteCount m) old) = 4 + serializedByteCount m) by (unfold len; rewrite resize_length; lia). rewrite L.
  assert (B : writeTo h m (skipn 4 (resize (4 + serializedByteCount m) old)) = full h m); [|rewrite B; reflexivity].
  destruct X as [X| ->].
  - apply writeTo_short; [exact X|]. change 4%nat with (Z.to_nat 4). rewrite len_skipn; lia.
  - unfold resize. rewrite firstn_nil. cbn [app length]. rewrite skipn_repeat. apply writeTo_zero. lia.
Qed.
Lemma full_head h m : exists t, full h m = endianByte h :: t.
Proof. rewrite full_eq. eexists. reflexivity. Qed.
Lemma fromByteArray_full json h1 h2 m m0 rest : wire m -> m_payload m0 = [] ->
  fromByteArray json h2 m0 (full h1 m ++ rest) = Done (arrives h1 h2 m) (serializedByteCount m).
Proof.
  intros W P. unfold fromByteArray. destruct (full_head h1 m) as [t E]. cbn [fromBytes]. pose proof (sbc_base m). pose proof (len_nonneg rest).
  rewrite len_app, full_len. replace (serializedByteCount m + len rest <? baseSize) with false by lia.
  assert (N : nth_error (full h1 m ++ rest) 0 = Some (endianByte h1)) by (rewrite E; reflexivity). rewrite N. cbn [bind].
  replace (endianByte h1 =? LEAD) with false by (destruct h1; reflexivity). change (0 <? 0) with false. cbv iota.
  replace (endianByte h1 =? BRACE) with false by (destruct h1; reflexivity). apply decode_full; assumption.
Qed.
Lemma fromString_full json h1 h2 m m0 rest : wire m -> m_payload m0 = [] ->
  fromString json h2 m0 (full h1 m ++ rest) = Done (arrives h1 h2 m) (serializedByteCount m).
Proof.
  intros W P. unfold fromString. rewrite fromByteArray_full by assumption. pose proof (sbc_base m). unfold baseSize in *. replace (serializedByteCount m =? 0) with false by lia. reflexivity.
Qed.
Lemma arrives_same h m : arrives h h m = carried m.
Proof. unfold arrives. rewrite Bool.eqb_reflx. reflexivity. Qed.

(** ** C20: a command serialized and deserialized (with any bytes behind it, any JSON reader, into any message
    object without payload) is the same command, and as many bytes are used as were predicted *)
Theorem C20_command_round_trip json h m m0 rest : wire m -> m_payload m0 = [] ->
  fromString json h m0 (toString h m ++ rest) = Done (carried m) (serializedByteCount m).
Proof. intros W P. unfold toString. rewrite toStringIn_full by (right; reflexivity). rewrite fromString_full by assumption. rewrite arrives_same. reflexivity. Qed.
Theorem C20_all_fields_kept m : m_action m <> CMD_TIME_REQUEST -> m_Te m = 0 -> m_Tdemin m = 0 -> m_Tso m = 0 -> carried m = m.
Proof. intros A B C D. unfold carried. replace (m_action m =? CMD_TIME_REQUEST) with false by lia. destruct m; cbn in *; subst; reflexivity. Qed.
Theorem C20_all_fields_of_time_request_kept m : m_action m = CMD_TIME_REQUEST -> m_payload m = [] -> m_strings m = [] -> carried m = m.
Proof. intros A B C. unfold carried. rewrite A, Z.eqb_refl. destruct m; cbn in *; subst; reflexivity. Qed.
Theorem C20_size_predicted h m old : len (toStringIn h m old) = serializedByteCount m.
Proof. pose proof (sbc_pos m). apply writeTo_len. unfold len. rewrite resize_length. lia. Qed.
(** the old contents of the buffer do not matter (unless the payload has exactly 0xFFFFFF bytes: then the length
    of the announced further string is never written) *)
Theorem C20_buffer_can_be_reused h m old : len (m_payload m) <> maxPayload -> toStringIn h m old = toString h m.
Proof.
  intros N. unfold toString. rewrite !toStringIn_full; [reflexivity|right; reflexivity|left]. unfold exactMax. replace (len (m_payload m) =? maxPayload) with false by lia. apply andb_false_r.
Qed.
(** different commands have different encodings *)
Theorem C20_encoding_injective h m1 m2 : wire m1 -> wire m2 -> toString h m1 = toString h m2 -> carried m1 = carried m2.
Proof.
  intros W1 W2 E. set (m0 := set_m_payload [] m1). assert (P : m_payload m0 = []) by reflexivity.
  pose proof (C20_command_round_trip (fun m _ => (m, false)) h m1 m0 [] W1 P) as A. pose proof (C20_command_round_trip (fun m _ => (m, false)) h m2 m0 [] W2 P) as B. congruence.
Qed.

Definition blank : amsg := mkMsg 0 0 0 0 0 0 0 0 0 0 0 0 0 [] [].
(** a command with every kind of field *)
Definition sample : amsg := mkMsg CMD_PUB 77 131074 3 (-5) 9 65535 4097 4294967295 (-9000000000) 0 0 0 [1; 2; 255; 0; 7] [[104; 105]; []; [97]].
Lemma sample_wire : wire sample.
Proof. constructor; unfold int32, int64, uint16, uint32; match goal with |- Forall _ _ => repeat constructor | _ => vm_compute; intuition congruence end. Qed.
Lemma blank_wire : wire blank.
Proof. constructor; unfold int32, int64, uint16, uint32; match goal with |- Forall _ _ => repeat constructor | _ => vm_compute; intuition congruence end. Qed.
Example C20_round_trip_nonvacuous : wire sample /\ m_payload blank = [] /\ carried sample = sample /\
  fromString (fun m _ => (m, false)) true blank (toString true sample) = Done sample (len (toString true sample)).
Proof. split; [apply sample_wire|]. split; [reflexivity|]. split; [reflexivity|]. vm_compute. reflexivity. Qed.
(** decoding into an object which already holds a payload keeps that payload when the command has none *)
Theorem C20_reused_object_keeps_payload_refuted : exists m m0, wire m /\
  fromString (fun m _ => (m, false)) true m0 (toString true m) <> Done (carried m) (serializedByteCount m).
Proof.
  exists blank, (set_m_payload [42] blank). split.
  - apply blank_wire.
  - vm_compute. intros E. discriminate E.
Qed.

(** ** C21: packets *)
Lemma depack_frame json inner m0 sub rest : 4 + len sub < 16777216 ->
  depackWith json inner m0 (frame sub ++ rest) = body json inner m0 sub (4 + len sub).
Proof.
  intros L. pose proof (len_nonneg sub) as LN. pose proof (len_nonneg rest) as RN. unfold depackWith.
  assert (FL : len (frame sub ++ rest) = len sub + 6 + len rest) by (rewrite len_app, frame_len; lia). rewrite FL.
  pose proof (sizeBytes_val (4 + len sub) ltac:(lia)) as SV. unfold frame, sizeBytes in *.
  set (v1 := ((4 + len sub) / 65536) mod 256) in *. set (v2 := ((4 + len sub) / 256) mod 256) in *. set (v3 := (4 + len sub) mod 256) in *. clearbody v1 v2 v3.
  cbn [app nth_error bind]. change (negb (LEAD =? LEAD)) with false. cbv iota. replace (len sub + 6 + len rest <? 6) with false by lia.
  replace ((v1 * 256 + v2) * 256 + v3) with (4 + len sub) by lia. replace (len sub + 6 + len rest <? 4 + len sub + 2) with false by lia.
  set (buf := (sub ++ [TAIL1; TAIL2]) ++ rest).
  assert (B : buf = sub ++ [TAIL1; TAIL2] ++ rest) by (unfold buf; rewrite <- app_assoc; reflexivity).
  assert (N1 : nth_error buf (length sub) = Some TAIL1) by (rewrite B, nth_error_app2, Nat.sub_diag by lia; reflexivity).
  assert (N2 : nth_error buf (S (length sub)) = Some TAIL2) by (rewrite B, nth_error_app2 by lia; replace (S (length sub) - length sub)%nat with 1%nat by lia; reflexivity).
  replace (Z.to_nat (4 + len sub)) with (4 + length sub)%nat by (unfold len; lia). replace (Z.to_nat (4 + len sub + 1)) with (4 + S (length sub))%nat by (unfold len; lia).
  change (nth_error (LEAD :: v1 :: v2 :: v3 :: buf) (4 + length sub)) with (nth_error buf (length sub)). rewrite N1. cbn [bind]. rewrite Z.eqb_refl. cbn [negb].
  change (nth_error (LEAD :: v1 :: v2 :: v3 :: buf) (4 + S (length sub))) with (nth_error buf (S (length sub))). rewrite N2. cbn [bind]. rewrite Z.eqb_refl. cbn [negb].
  replace (4 + len sub <? 4) with false by lia. rewrite skipn4. replace (Z.to_nat (4 + len sub - 4)) with (length sub) by (unfold len; lia).
  rewrite B, firstn_app, Nat.sub_diag, firstn_all. cbn [firstn]. rewrite app_nil_r. reflexivity.
Qed.
Lemma packet_read json h1 h2 m m0 rest : wire m -> m_payload m0 = [] -> 4 + serializedByteCount m < 16777216 ->
  depacketize json h2 m0 (packetize h1 m ++ rest) = Done (arrives h1 h2 m) (len (packetize h1 m)).
Proof.
  intros W P L. unfold depacketize, packetize. rewrite packetizeIn_frame by (right; reflexivity). rewrite depack_frame by (rewrite full_len; exact L).
  unfold body. pose proof (fromByteArray_full json h1 h2 m m0 [] W P) as E. rewrite app_nil_r in E. rewrite E. pose proof (sbc_base m). unfold baseSize in *. replace (serializedByteCount m =? 0) with false by lia.
  f_equal. rewrite frame_len, full_len. lia.
Qed.
(** a packet gives back the command and is used up exactly, whatever follows it *)
Theorem C21_packet_round_trip json h m m0 rest : wire m -> m_payload m0 = [] -> 4 + serializedByteCount m < 16777216 ->
  depacketize json h m0 (packetize h m ++ rest) = Done (carried m) (len (packetize h m)).
Proof. intros W P L. rewrite packet_read by assumption. rewrite arrives_same. reflexivity. Qed.
Theorem C21_packet_size h m old : len (packetizeIn h m old) = serializedByteCount m + 6.
Proof.
  pose proof (sbc_pos m). unfold packetizeIn. rewrite len_cons, !len_app. change (len [TAIL1; TAIL2]) with 2.
  rewrite writeTo_len; [unfold sizeBytes; rewrite !len_cons; change (len (@nil Z)) with 0; lia|]. change 4%nat with (Z.to_nat 4).
  assert (L : len (resize (4 + serializedByteCount m) old) = 4 + serializedByteCount m) by (unfold len; rewrite resize_length; lia). rewrite len_skipn; lia.
Qed.
(** a received buffer that does not start with a complete frame (wrong lead byte, wrong tail, too short) is
    rejected: no bytes used, the message unchanged *)
Theorem C21_bad_frame_rejected json h m0 buf : bytes buf -> buf <> [] ->
  (forall sub rest, ~ framed buf sub rest) -> depacketize json h m0 buf = Done m0 0.
Proof. intros F NE N. destruct (depack_cases json (fromByteArray json h) m0 buf F NE) as [(sub & rest & FR & _)|[_ E]]; [destruct (N _ _ FR)|exact E]. Qed.
Theorem C21_wrong_lead_rejected json h m0 b buf : bytes (b :: buf) -> b <> LEAD -> depacketize json h m0 (b :: buf) = Done m0 0.
Proof. intros F N. apply C21_bad_frame_rejected; [exact F|discriminate|]. intros sub rest [_ E]. injection E as E _. contradiction. Qed.
Theorem C21_wrong_tail_rejected json h m0 sub t1 t2 rest : 4 + len sub < 16777216 -> (t1 <> TAIL1 \/ t2 <> TAIL2) ->
  bytes (LEAD :: sizeBytes (4 + len sub) ++ sub ++ [t1; t2] ++ rest) ->
  depacketize json h m0 (LEAD :: sizeBytes (4 + len sub) ++ sub ++ [t1; t2] ++ rest) = Done m0 0.
Proof.
  intros L T F. apply C21_bad_frame_rejected; [exact F|discriminate|]. intros sub' rest' [L' E]. unfold frame in E. pose proof (len_nonneg sub). pose proof (len_nonneg sub').
  pose proof (sizeBytes_val (4 + len sub) ltac:(lia)) as V. pose proof (sizeBytes_val (4 + len sub') ltac:(lia)) as V'. unfold sizeBytes in E.
  set (v1 := ((4 + len sub) / 65536) mod 256) in *. set (v2 := ((4 + len sub) / 256) mod 256) in *. set (v3 := (4 + len sub) mod 256) in *. clearbody v1 v2 v3.
  set (w1 := ((4 + len sub') / 65536) mod 256) in *. set (w2 := ((4 + len sub') / 256) mod 256) in *. set (w3 := (4 + len sub') mod 256) in *. clearbody w1 w2 w3.
  cbn [app] in E. injection E as E1 E2 E3 E4. assert (LE : length sub = length sub') by (unfold len in *; lia).
  rewrite <- app_assoc in E4. assert (S' : sub = sub' /\ t1 :: t2 :: rest = [TAIL1; TAIL2] ++ rest').
  { clear -E4 LE. revert sub' LE E4. induction sub as [|x l IH]; intros [|y l'] LE E; try discriminate LE; cbn [app] in *.
    - auto.
    - injection E as -> E. injection LE as LE. destruct (IH _ LE E) as [-> R]. auto. }
  destruct S' as [_ S']. injection S' as -> -> _. destruct T; contradiction.
Qed.
(** a buffer which is accepted starts with a frame, exactly the frame is used, and its body was read as a command
    or as JSON *)
Theorem C21_accepted_is_frame json h m0 buf m u : bytes buf -> buf <> [] -> depacketize json h m0 buf = Done m u -> u <> 0 ->
  exists sub rest, framed buf sub rest /\ u = len (frame sub) /\
    ((exists n, fromByteArray json h m0 sub = Done m n /\ n <> 0) \/ (exists m1, fromByteArray json h m0 sub = Done m1 0 /\ json m1 sub = (m, true))).
Proof.
  intros F NE E U. destruct (depack_cases json (fromByteArray json h) m0 buf F NE) as [(sub & rest & FR & D)|[_ D]]; unfold depacketize in E; rewrite D in E; [|congruence].
  exists sub, rest. split; [exact FR|]. rewrite frame_len. unfold body in E. destruct (fromByteArray json h m0 sub) as [| |m1 n] eqn:I; try discriminate E. destruct (Z.eqb_spec n 0) as [->|N].
  - destruct (json m1 sub) as [m2 ok] eqn:J. assert (m2 = m) by congruence. assert (u = if ok then 4 + len sub + 2 else 0) by congruence. subst m2. destruct ok; [|contradiction]. split; [lia|]. right. exists m1. split; [reflexivity|exact J].
  - assert (m1 = m) by congruence. assert (u = 4 + len sub + 2) by congruence. subst m1. split; [lia|]. left. exists n. auto.
Qed.
Lemma bytes_toMem h n v : bytes (toMem h n v).
Proof. assert (L : bytes (leBytes n v)). { revert v. induction n as [|n IH]; intros v; constructor; [apply Z.mod_pos_bound; lia|apply IH]. } unfold toMem. destruct h; auto using bytes_rev. Qed.
Lemma bytes_sizeBytes s : bytes (sizeBytes s).
Proof. repeat constructor; apply Z.mod_pos_bound; lia. Qed.
Lemma full_bytes h m : bytes (m_payload m) -> Forall bytes (m_strings m) -> bytes (full h m).
Proof.
  intros P S. rewrite full_eq. constructor; [destruct h; split; reflexivity || (intro X; discriminate X)|]. apply bytes_app. split; [apply bytes_sizeBytes|]. apply bytes_app. split.
  - unfold fixedFields. repeat (apply bytes_app; split; [apply bytes_toMem|]). apply bytes_toMem.
  - destruct (_ =? _).
    + repeat (apply bytes_app; split; [apply bytes_toMem|]). repeat constructor; (reflexivity || (intro X; discriminate X)).
    + apply bytes_app. split; [apply bytes_firstn, P|]. constructor; [apply Z.mod_pos_bound; lia|].
      assert (A : Forall bytes (allStrings m)) by (unfold allStrings; apply Forall_app; split; [exact S|destruct (_ <=? _); repeat constructor; apply bytes_skipn, P]).
      induction A as [|s l B _ IH]; [constructor|]. cbn [flat_map]. apply bytes_app. split; [|exact IH]. unfold stringBytes. apply bytes_app. split; [apply bytes_toMem|exact B].
Qed.
Lemma frame_is_bytes sub : bytes sub -> bytes (frame sub).
Proof.
  intros F. unfold frame. constructor; [split; reflexivity || (intro X; discriminate X)|]. apply bytes_app. split; [apply bytes_sizeBytes|]. apply bytes_app. split; [exact F|]. repeat constructor; (reflexivity || (intro X; discriminate X)).
Qed.
(** what is sent consists of bytes *)
Theorem C21_packet_is_bytes h m : bytes (m_payload m) -> Forall bytes (m_strings m) -> bytes (packetize h m).
Proof. intros P S. unfold packetize. rewrite packetizeIn_frame by (right; reflexivity). apply frame_is_bytes, full_bytes; assumption. Qed.
(** The length of a packet is written into 24 bits: a command of 16 MB or more is packed into a packet which no
    receiver can take as a whole. *)
Theorem C21_large_packet_never_accepted_refuted h1 m : bytes (m_payload m) -> Forall bytes (m_strings m) -> 16777216 <= 4 + serializedByteCount m ->
  forall json h2 m0 m' u, depacketize json h2 m0 (packetize h1 m) = Done m' u -> u < len (packetize h1 m).
Proof.
  intros P S L json h2 m0 m' u E. pose proof (C21_packet_is_bytes h1 m P S) as F. unfold packetize. rewrite C21_packet_size. destruct (Z.eq_dec u 0) as [->|U]; [lia|].
  destruct (C21_accepted_is_frame _ _ _ _ _ _ F ltac:(discriminate) E U) as (sub & rest & [LT _] & -> & _). rewrite frame_len. lia.
Qed.
Lemma bytes_zero n : bytes (repeat 0 n).
Proof. induction n; constructor; [split; lia|assumption]. Qed.
Lemma some_bytes n : 0 <= n -> exists p, bytes p /\ len p = n.
Proof. intros P. exists (repeat 0 (Z.to_nat n)). split; [apply bytes_zero|]. unfold len. rewrite repeat_length. apply Z2Nat.id, P. Qed.
Example C21_large_packet_exists : exists m, wire m /\ bytes (m_payload m) /\ Forall bytes (m_strings m) /\ 16777216 <= 4 + serializedByteCount m.
Proof.
  destruct (some_bytes 20000000 ltac:(lia)) as (p & F & L). exists (set_m_payload p sample). split; [|split; [|split]].
  - constructor; try apply sample_wire.
    + unfold set_m_payload. cbn [m_strings m_payload]. rewrite L. vm_compute. discriminate.
    + unfold set_m_payload. cbn [m_payload]. rewrite L. lia.
    + unfold serializedByteCount, set_m_payload. cbn [m_action m_payload m_strings]. rewrite L. vm_compute. reflexivity.
  - exact F.
  - unfold set_m_payload. cbn [m_strings sample]. repeat constructor; (reflexivity || (intro X; discriminate X)).
  - unfold serializedByteCount, set_m_payload. cbn [m_action m_payload m_strings]. rewrite L. vm_compute. discriminate.
Qed.
Example C21_round_trip_nonvacuous : 4 + serializedByteCount sample < 16777216 /\
  depacketize (fun m _ => (m, false)) true blank (packetize true sample ++ [1; 2; 3]) = Done sample (len (packetize true sample)) /\
  depacketize (fun m _ => (m, false)) true blank (removelast (packetize true sample) ++ [1; 2; 3]) = Done blank 0.
Proof. split; [vm_compute; reflexivity|]. split; vm_compute; reflexivity. Qed.

(** ** C22: any received bytes *)
Theorem C22_decoder_stays_inside json h m0 buf : bytes buf ->
  exists m u, fromString json h m0 buf = Done m u /\ 0 <= u <= len buf.
Proof.
  intros F. unfold fromString. destruct (fromBytes_safe json h (S (length buf)) m0 buf F ltac:(lia)) as (m1 & u & E & U). unfold fromByteArray. rewrite E.
  destruct (_ && _); [|eexists _, _; split; [reflexivity|exact U]]. destruct (json m1 buf) as [m2 ok]. eexists _, _. split; [reflexivity|]. pose proof (len_nonneg buf). destruct ok; lia.
Qed.
Theorem C22_depacketizer_stays_inside json h m0 buf : bytes buf -> buf <> [] ->
  exists m u, depacketize json h m0 buf = Done m u /\ 0 <= u <= len buf.
Proof.
  intros F NE. apply depack_safe; auto. intros m sub FS LS. destruct (fromBytes_safe json h (S (length sub)) m sub FS ltac:(lia)) as (m' & u & E & U). exists m', u. split; [exact E|lia].
Qed.
(** bytes which are neither a frame nor JSON give a command and at least the 45 bytes of the fixed part, or the
    command is reported invalid with no bytes used *)
Theorem C22_command_or_invalid json h m0 b buf : bytes (b :: buf) -> b <> LEAD -> b <> BRACE ->
  exists m u, fromString json h m0 (b :: buf) = Done m u /\ ((u = 0 /\ m_action m = CMD_INVALID) \/ 45 <= u <= len (b :: buf)).
Proof.
  intros F NL NB. unfold fromString, fromByteArray. cbn [fromBytes nth_error bind]. replace (b =? LEAD) with false by lia. replace (b =? BRACE) with false by lia. change (0 <? 0) with false. cbv iota.
  destruct (Z.ltb_spec (len (b :: buf)) baseSize) as [L|L].
  - rewrite andb_false_r. eexists _, _. split; [reflexivity|]. left. split; reflexivity.
  - destruct (fromFields_safe h m0 (b :: buf) F L) as (m & u & E & V). rewrite E, andb_false_r. exists m, u. split; [reflexivity|exact V].
Qed.
Theorem C22_receiver_stays_inside json h m0 buf : bytes buf ->
  exists ms n, dataReceive json h m0 buf = Some (ms, n) /\ 0 <= n <= len buf.
Proof.
  intros F. unfold dataReceive. assert (G : forall fuel buf, bytes buf -> (length buf < fuel)%nat -> exists ms n, receiveLoop json fuel h m0 buf = Some (ms, n) /\ 0 <= n <= len buf).
  { clear. induction fuel as [|k IH]; intros buf F L; [lia|]. cbn [receiveLoop]. destruct buf as [|b0 buf']; [eexists _, _; split; [reflexivity|cbn; lia]|].
    set (buf := b0 :: buf') in *. destruct (C22_depacketizer_stays_inside json h m0 buf F ltac:(discriminate)) as (m & u & E & U). rewrite E. pose proof (len_nonneg buf).
    destruct (Z.eqb_spec u 0); [eexists _, _; split; [reflexivity|lia]|].
    destruct (IH (skipn (Z.to_nat u) buf)) as (ms & n' & E2 & U2). { apply bytes_skipn, F. } { rewrite skipn_length. unfold len in *. lia. }
    rewrite E2. eexists _, _. split; [reflexivity|]. rewrite len_skipn in U2; lia. }
  apply G; [exact F|lia].
Qed.
(** an empty buffer handed to depacketize is read beyond its end (no caller in the library does that) *)
Theorem C22_empty_packet_read_outside_refuted json h m0 : depacketize json h m0 [] = Fault.
Proof. reflexivity. Qed.
(** a frame may hold a frame: a sender can make the decoder recurse once for every 6 bytes, up to 2^24/6 deep *)
Fixpoint nested (n : nat) : list Z := match n with O => repeat 0 39 | S k => frame (nested k) end.
Lemma nested_len n : len (nested n) = 39 + 6 * Z.of_nat n.
Proof. induction n as [|n IH]; [reflexivity|]. cbn [nested]. rewrite frame_len, IH. lia. Qed.
Theorem C22_recursion_as_deep_as_the_packet_refuted json h m0 n : 39 + 6 * Z.of_nat n < 16777210 -> (0 < n)%nat ->
  bytes (nested n) /\ len (nested n) = 39 + 6 * Z.of_nat n /\ fromBytes json n h m0 (nested n) = NoEnd.
Proof.
  intros L P. split; [|split; [apply nested_len|]].
  - clear. induction n as [|n IH]; [apply bytes_zero|]. apply frame_is_bytes, IH.
  - assert (G : forall n m0, 39 + 6 * Z.of_nat n < 16777210 -> fromBytes json n h m0 (nested n) = NoEnd); [|apply G; exact L]. clear. induction n as [|n IH]; intros m0 L; [reflexivity|]. cbn [fromBytes]. rewrite nested_len.
    replace (39 + 6 * Z.of_nat (S n) <? baseSize) with false by (unfold baseSize; lia). cbn [nested]. change (nth_error (frame (nested n)) 0) with (Some LEAD). cbn [bind]. rewrite Z.eqb_refl.
    rewrite <- (app_nil_r (frame (nested n))), depack_frame by (rewrite nested_len; lia). unfold body. rewrite IH by lia. reflexivity.
Qed.
Example C22_nonvacuous : bytes [243; 0; 0; 6; 1; 2; 250; 252; 9] /\ depacketize (fun m _ => (m, false)) true blank [243; 0; 0; 6; 1; 2; 250; 252; 9] = Done (invalid blank) 0.
Proof. split; [repeat constructor; cbn; lia|reflexivity]. Qed.

(** ** C23: between hosts of different byte order every field but the sequence number arrives as it was sent; the
    bytes of the sequence number arrive swapped (ActionMessage.cpp:538-562).  Missing: the sequence number, for which
    the claim is false. *)
Theorem C23_other_byte_order_partial json h1 h2 m m0 rest : wire m -> m_payload m0 = [] ->
  fromString json h2 m0 (toString h1 m ++ rest) =
    Done (set_m_sequenceID (if Bool.eqb h1 h2 then m_sequenceID m else swap32 (m_sequenceID m)) (carried m)) (serializedByteCount m).
Proof.
  intros W P. unfold toString. rewrite toStringIn_full by (right; reflexivity). rewrite fromString_full by assumption. f_equal. unfold arrives. destruct (Bool.eqb h1 h2); [|reflexivity].
  unfold carried. destruct (_ =? _); destruct m; reflexivity.
Qed.
Theorem C23_packets_other_byte_order_partial json h1 h2 m m0 rest : wire m -> m_payload m0 = [] -> 4 + serializedByteCount m < 16777216 ->
  m_sequenceID m = 0 -> depacketize json h2 m0 (packetize h1 m ++ rest) = Done (carried m) (len (packetize h1 m)).
Proof.
  intros W P L S. rewrite packet_read by assumption. f_equal. unfold arrives. rewrite S. destruct (Bool.eqb h1 h2); [reflexivity|].
  change (swap32 0) with 0. unfold carried. destruct (_ =? _); destruct m; cbn in *; subst; reflexivity.
Qed.
Theorem C23_sequence_number_swapped_refuted json h m m0 : wire m -> m_payload m0 = [] -> swap32 (m_sequenceID m) <> m_sequenceID m ->
  fromString json (negb h) m0 (toString h m) <> Done (carried m) (serializedByteCount m).
Proof.
  intros W P N E. pose proof (C23_other_byte_order_partial json h (negb h) m m0 [] W P) as D. rewrite app_nil_r in D. rewrite D in E. injection E as E. replace (Bool.eqb h (negb h)) with false in E by (destruct h; reflexivity).
  apply (f_equal m_sequenceID) in E. unfold carried in E. destruct (_ =? _); cbn in E; contradiction.
Qed.
Example C23_nonvacuous : wire (set_m_sequenceID 1 sample) /\ swap32 1 = 16777216 /\
  fromString (fun m _ => (m, false)) false blank (toString true (set_m_sequenceID 1 sample)) = Done (set_m_sequenceID 16777216 sample) (serializedByteCount sample).
Proof. split; [|split; vm_compute; reflexivity]. constructor; try apply sample_wire; vm_compute; intuition congruence. Qed.
