(** * Proofs about the wire format *)
From Coq Require Import ZArith Bool List Lia ZifyBool.
From Verif Require Import HTime Action Codec.
Import ListNotations.
Open Scope Z_scope.

Lemma len_app {A} (a b : list A) : len (a ++ b) = len a + len b.
Proof. unfold len. rewrite app_length. lia. Qed.
Lemma len_cons {A} (x : A) l : len (x :: l) = 1 + len l.
Proof. unfold len. cbn [length]. lia. Qed.
Lemma len_nil {A} : len (@nil A) = 0. Proof. reflexivity. Qed.
Lemma len_nonneg {A} (l : list A) : 0 <= len l. Proof. unfold len. lia. Qed.
Lemma leBytes_len n v : length (leBytes n v) = n.
Proof. revert v. induction n; intros v; cbn; [reflexivity|]. rewrite IHn. reflexivity. Qed.
Lemma leVal_leBytes n v : leVal (leBytes n v) = v mod 256 ^ Z.of_nat n.
Proof.
  revert v. induction n as [|n IH]; intros v; [cbn; rewrite Z.mod_1_r; reflexivity|]. cbn [leBytes leVal]. rewrite IH, Nat2Z.inj_succ, Z.pow_succ_r by lia.
  rewrite (Z.rem_mul_r v 256 (256 ^ Z.of_nat n)) by lia. reflexivity.
Qed.
Lemma toMem_len h n v : len (toMem h n v) = Z.of_nat n.
Proof. unfold len, toMem. destruct h; rewrite ?rev_length, leBytes_len; reflexivity. Qed.
(** reading what another host wrote *)
Lemma mem_roundtrip h1 h2 n v : fromMem h2 (swapMem (negb (endianByte h1 =? endianByte h2)) (toMem h1 n v)) = v mod 256 ^ Z.of_nat n.
Proof. unfold fromMem, swapMem, toMem. destruct h1, h2; cbn; rewrite ?rev_involutive; apply leVal_leBytes. Qed.
Lemma signed_mod n v : (0 < n)%nat -> - 2 ^ (8 * Z.of_nat n - 1) <= v < 2 ^ (8 * Z.of_nat n - 1) -> signed n (v mod 256 ^ Z.of_nat n) = v.
Proof.
  intros P B. unfold signed. change 256 with (2 ^ 8). rewrite <- Z.pow_mul_r by lia. set (e := 8 * Z.of_nat n) in *. assert (E : 2 ^ e = 2 * 2 ^ (e - 1)) by (rewrite <- Z.pow_succ_r by lia; f_equal; lia).
  destruct (Z.le_gt_cases 0 v).
  - rewrite Z.mod_small by lia. destruct (Z.ltb_spec v (2 ^ (e - 1))); lia.
  - replace (v mod 2 ^ e) with (v + 2 ^ e). 2:{ symmetry. rewrite <- (Z.mod_small (v + 2 ^ e) (2 ^ e)) by lia. rewrite <- (Z_mod_plus_full v 1 (2 ^ e)). f_equal. lia. }
    destruct (Z.ltb_spec (v + 2 ^ e) (2 ^ (e - 1))); lia.
Qed.
Lemma take_app n a b : len a = n -> take n (a ++ b) = Some (a, b).
Proof.
  intros E. unfold take. rewrite len_app. pose proof (len_nonneg b). replace (len a + len b <? n) with false by lia.
  assert (L : Z.to_nat n = length a) by (unfold len in E; lia). rewrite L, firstn_app, skipn_app, Nat.sub_diag, firstn_all, skipn_all. cbn. rewrite app_nil_r. reflexivity.
Qed.
Lemma take_ok n l : 0 <= n <= len l -> exists a b, take n l = Some (a, b) /\ len a = n /\ len b = len l - n /\ l = a ++ b.
Proof.
  intros B. unfold take. replace (len l <? n) with false by lia. eexists _, _. split; [reflexivity|]. unfold len in *. rewrite firstn_length, skipn_length, firstn_skipn. repeat split; lia.
Qed.

(** ** What can be sent *)
Definition int32 (v : Z) : Prop := -2147483648 <= v < 2147483648.
Definition int64 (v : Z) : Prop := -9223372036854775808 <= v < 9223372036854775808.
Definition uint16 (v : Z) : Prop := 0 <= v < 65536.
Definition uint32 (v : Z) : Prop := 0 <= v < 4294967296.
(** field types (ActionMessage.hpp:34-50) and the limits of the format: 255 strings (one less when the payload
    needs a further one), string lengths of 32 bits *)
Record wire (m : amsg) : Prop := {
  w_action : int32 (m_action m);
  w_id : int32 (m_messageID m);
  w_src : int32 (m_source_id m);
  w_srch : int32 (m_source_handle m);
  w_dst : int32 (m_dest_id m);
  w_dsth : int32 (m_dest_handle m);
  w_counter : uint16 (m_counter m);
  w_flags : uint16 (m_flags m);
  w_seq : uint32 (m_sequenceID m);
  w_time : int64 (m_actionTime m);
  w_te : int64 (m_Te m);
  w_tdemin : int64 (m_Tdemin m);
  w_tso : int64 (m_Tso m);
  w_count : len (m_strings m) + (if maxPayload <=? len (m_payload m) then 1 else 0) <= 255;
  w_strings : Forall (fun s => len s < 4294967296) (m_strings m);
  w_payload : len (m_payload m) < 4294967296;
  w_total : serializedByteCount m < 2147483648   (* serializedByteCount is an int *)
}.
(** what a message carries: time requests have no payload and no strings, and only they have the three times *)
Definition carried (m : amsg) : amsg :=
  if m_action m =? CMD_TIME_REQUEST then set_m_payload [] (set_m_strings [] m)
  else set_m_Te 0 (set_m_Tdemin 0 (set_m_Tso 0 m)).
(** the bytes of a 4 byte number in the other order *)
Definition swap32 (v : Z) : Z := leVal (rev (leBytes 4 v)).
Definition arrives (h1 h2 : bool) (m : amsg) : amsg := if Bool.eqb h1 h2 then carried m else set_m_sequenceID (swap32 (m_sequenceID m)) (carried m).

Lemma fromMem_seq h1 h2 v : uint32 v -> fromMem h2 (toMem h1 4 v) = if Bool.eqb h1 h2 then v else swap32 v.
Proof.
  intros B. assert (V : leVal (leBytes 4 v) = v) by (rewrite leVal_leBytes; apply Z.mod_small; exact B).
  unfold fromMem, toMem, swap32. destruct h1, h2; cbn [Bool.eqb]; rewrite ?rev_involutive; auto.
Qed.
Lemma fixedFields_len h m : len (fixedFields h m) = 40.
Proof. unfold fixedFields. rewrite !len_app, !toMem_len. reflexivity. Qed.
Lemma sizeBytes_val s : 0 <= s < 16777216 -> 65536 * ((s / 65536) mod 256) + 256 * ((s / 256) mod 256) + s mod 256 = s.
Proof. intros B. Z.div_mod_to_equations. lia. Qed.

Definition strBytes (l : list (list Z)) : Z := fold_right (fun s n => 4 + len s + n) 0 l.
Lemma strBytes_app a b : strBytes (a ++ b) = strBytes a + strBytes b.
Proof. induction a as [|x a IH]; [reflexivity|]. cbn [app]. unfold strBytes in *. cbn [fold_right]. rewrite IH. lia. Qed.
Lemma strBytes_nonneg l : 0 <= strBytes l.
Proof. unfold strBytes. induction l as [|x l IH]; [cbn; lia|]. cbn [fold_right]. pose proof (len_nonneg x). lia. Qed.
Lemma flat_strings_len h l : len (flat_map (stringBytes h) l) = strBytes l.
Proof. induction l as [|s l IH]; [reflexivity|]. cbn [flat_map]. rewrite len_app, IH. unfold stringBytes. rewrite len_app, toMem_len. unfold strBytes. cbn [fold_right]. lia. Qed.
Lemma readStrings_all h1 h2 bs l : Forall (fun s => len s < 4294967296) l -> forall tsize rest got k m,
  tsize + (strBytes l - 4 * len l) <= bs ->
  readStrings h2 (negb (endianByte h1 =? endianByte h2)) bs (length l) tsize (flat_map (stringBytes h1) l ++ rest) got k m = k (got ++ l) (tsize + (strBytes l - 4 * len l)).
Proof.
  induction 1 as [|s l HS F IH]; intros tsize rest got k m B.
  - cbn [readStrings length flat_map app]. rewrite app_nil_r. f_equal. change (strBytes []) with 0. change (len (@nil (list Z))) with 0. lia.
  - cbn [readStrings length flat_map]. unfold stringBytes at 1. rewrite <- !app_assoc, take_app by apply toMem_len. cbn [bind]. rewrite mem_roundtrip.
    rewrite Z.mod_small by (pose proof (len_nonneg s); cbn; lia). change (strBytes (s :: l)) with (4 + len s + strBytes l) in *. rewrite len_cons in *.
    assert (P : 4 * len l <= strBytes l). { clear. induction l as [|x l IH]; [cbn; lia|]. change (strBytes (x :: l)) with (4 + len x + strBytes l). rewrite len_cons. pose proof (len_nonneg x). lia. }
    replace (bs <? tsize + len s) with false by lia. rewrite take_app by reflexivity. cbn [bind]. rewrite IH by lia. rewrite <- app_assoc. cbn [app]. f_equal. lia.
Qed.
Lemma len_firstn {A} n (l : list A) : 0 <= n <= len l -> len (firstn (Z.to_nat n) l) = n.
Proof. unfold len. rewrite firstn_length. lia. Qed.
Lemma len_skipn {A} n (l : list A) : 0 <= n <= len l -> len (skipn (Z.to_nat n) l) = len l - n.
Proof. unfold len. rewrite skipn_length. lia. Qed.

(** The strings as they are written: with the rest of a long payload.  A payload of exactly the maximum announces
    one string more than is written; the four bytes in its place are those of the buffer ([gap]). *)
Definition allStrings (m : amsg) : list (list Z) :=
  m_strings m ++ (if maxPayload <=? len (m_payload m) then [skipn (Z.to_nat maxPayload) (m_payload m)] else []).
Definition exactMax (m : amsg) : bool := negb (m_action m =? CMD_TIME_REQUEST) && (len (m_payload m) =? maxPayload).
Definition full (h : bool) (m : amsg) : list Z := encode h m ++ (if exactMax m then [0; 0; 0; 0] else []).
Lemma zero_string h : stringBytes h [] = [0; 0; 0; 0].
Proof. destruct h; reflexivity. Qed.
Lemma full_eq h m : full h m = endianByte h :: sizeBytes (sizeField m) ++ fixedFields h m ++
  (if m_action m =? CMD_TIME_REQUEST
   then toMem h 8 (m_Te m) ++ toMem h 8 (m_Tdemin m) ++ toMem h 8 (m_Tso m) ++ [0]
   else firstn (Z.to_nat (sizeField m)) (m_payload m) ++ countByte m :: flat_map (stringBytes h) (allStrings m)).
Proof.
  unfold full, encode, exactMax, allStrings. destruct (m_action m =? CMD_TIME_REQUEST); cbn [negb andb]; [rewrite app_nil_r; reflexivity|]. rewrite flat_map_app. cbn [app]. rewrite <- !app_assoc. cbn [app]. rewrite <- !app_assoc. do 6 f_equal.
  destruct (Z.leb_spec maxPayload (len (m_payload m))), (Z.ltb_spec maxPayload (len (m_payload m))), (Z.eqb_spec (len (m_payload m)) maxPayload); try lia; cbn [flat_map]; rewrite ?app_nil_r; try reflexivity.
  rewrite skipn_all2 by (unfold len in *; lia). rewrite zero_string. reflexivity.
Qed.
Lemma allStrings_bytes m : strBytes (allStrings m) = strBytes (m_strings m) + (if maxPayload <=? len (m_payload m) then 4 + (len (m_payload m) - maxPayload) else 0).
Proof.
  unfold allStrings. rewrite strBytes_app. f_equal. destruct (Z.leb_spec maxPayload (len (m_payload m))); [|reflexivity]. unfold strBytes. cbn [fold_right]. rewrite len_skipn by (unfold maxPayload in *; lia). lia.
Qed.
Lemma full_len h m : len (full h m) = serializedByteCount m.
Proof.
  rewrite full_eq, len_cons, !len_app, fixedFields_len. change (len (sizeBytes (sizeField m))) with 3. unfold serializedByteCount, baseSize. destruct (m_action m =? CMD_TIME_REQUEST) eqn:T.
  - rewrite !len_app, !toMem_len. reflexivity.
  - rewrite len_app, len_cons, flat_strings_len, allStrings_bytes. change (fold_right (fun s n => 4 + len s + n) 0 (m_strings m)) with (strBytes (m_strings m)).
    unfold sizeField. rewrite T. pose proof (len_nonneg (m_payload m)). destruct (Z.leb_spec maxPayload (len (m_payload m))); rewrite len_firstn by (unfold maxPayload in *; lia); lia.
Qed.
Lemma carried_time m : m_action m = CMD_TIME_REQUEST -> carried m = mkMsg CMD_TIME_REQUEST (m_messageID m) (m_source_id m) (m_source_handle m) (m_dest_id m) (m_dest_handle m) (m_counter m) (m_flags m) (m_sequenceID m) (m_actionTime m) (m_Te m) (m_Tdemin m) (m_Tso m) [] [].
Proof. intros E. unfold carried. rewrite E, Z.eqb_refl. destruct m; cbn in *; subst; reflexivity. Qed.
Lemma last_snoc {A} (l : list A) x d : last (l ++ [x]) d = x.
Proof. induction l as [|y l IH]; [reflexivity|]. cbn. rewrite IH. destruct (l ++ [x]) eqn:E; [destruct l; discriminate|reflexivity]. Qed.
Lemma removelast_snoc {A} (l : list A) x : removelast (l ++ [x]) = l.
Proof. rewrite removelast_app by discriminate. cbn. apply app_nil_r. Qed.

(** The reader gets back what the message carries, except the sequence number between different hosts. *)
Lemma decode_full h1 h2 m m0 rest : wire m -> m_payload m0 = [] ->
  fromFields h2 m0 (full h1 m ++ rest) = Done (arrives h1 h2 m) (serializedByteCount m).
Proof.
  intros W P0. pose proof (full_len h1 m) as FL. pose proof (len_nonneg rest) as RN.
  unfold fromFields. rewrite len_app, FL. rewrite full_eq.
  match goal with |- context [(endianByte h1 :: sizeBytes (sizeField m) ++ ?x) ++ rest] =>
    replace ((endianByte h1 :: sizeBytes (sizeField m) ++ x) ++ rest) with ((endianByte h1 :: sizeBytes (sizeField m)) ++ (x ++ rest)) by exact (f_equal (cons (endianByte h1)) (app_assoc (sizeBytes (sizeField m)) x rest)) end.
  rewrite take_app by reflexivity. cbn [bind sizeBytes].
  assert (SF : 0 <= sizeField m <= maxPayload). { unfold sizeField. pose proof (len_nonneg (m_payload m)). unfold maxPayload in *. destruct (_ =? _); [lia|]. destruct (Z.leb_spec 16777215 (len (m_payload m))); lia. }
  rewrite sizeBytes_val by (unfold maxPayload in SF; lia). set (size := sizeField m) in *.
  assert (SC : baseSize + size <= serializedByteCount m).
  { unfold serializedByteCount, size, sizeField. destruct (m_action m =? CMD_TIME_REQUEST); [lia|]. change (fold_right (fun s n => 4 + len s + n) 0 (m_strings m)) with (strBytes (m_strings m)). pose proof (strBytes_nonneg (m_strings m)). pose proof (len_nonneg (m_payload m)).
    destruct (Z.leb_spec maxPayload (len (m_payload m))); lia. }
  replace (serializedByteCount m + len rest <? baseSize + size) with false by lia.
  unfold fixedFields. rewrite <- !app_assoc.
  do 6 (rewrite take_app by apply toMem_len; cbn [bind]). do 4 (rewrite take_app by apply toMem_len; cbn [bind]).
  rewrite !mem_roundtrip. rewrite fromMem_seq by apply W.
  rewrite !signed_mod by (try lia; destruct W; cbn; unfold int32, int64 in *; lia).
  rewrite (Z.mod_small (m_counter m)) by (apply W). rewrite (Z.mod_small (m_flags m)) by (apply W).
  cbn [m_action set_m_action set_m_messageID set_m_source_id set_m_source_handle set_m_dest_id set_m_dest_handle set_m_counter set_m_flags set_m_sequenceID set_m_actionTime].
  destruct (Z.eqb_spec (m_action m) CMD_TIME_REQUEST) as [T|T].
  - (* time request *)
    assert (SZ : size = 0) by (unfold size, sizeField; rewrite T; reflexivity).
    assert (SBC : serializedByteCount m = baseSize + 24) by (unfold serializedByteCount; rewrite T; reflexivity).
    rewrite SZ, SBC. replace (baseSize + 24 + len rest <? baseSize + 0 + 24) with false by lia. rewrite <- !app_assoc.
    do 3 (rewrite take_app by apply toMem_len; cbn [bind]). rewrite !mem_roundtrip, !signed_mod by (try lia; destruct W; cbn; unfold int64 in *; lia).
    cbn [Z.ltb Z.compare bind]. cbn [app]. change (0 :: rest) with ([0] ++ rest). rewrite take_app by reflexivity. cbn [bind].
    change (fromMem true [0] =? 0) with true. cbv iota. replace (baseSize + 0 + 24) with (baseSize + 24) by lia. f_equal.
    unfold arrives. rewrite carried_time by exact T.
    unfold set_m_Te, set_m_Tdemin, set_m_Tso, set_m_strings, set_m_payload, set_m_sequenceID. cbn. rewrite P0, T. destruct (Bool.eqb h1 h2); reflexivity.
  - replace (m_action m =? CMD_TIME_REQUEST) with false in * by lia.
    assert (FS : len (firstn (Z.to_nat size) (m_payload m)) = size).
    { apply len_firstn. split; [lia|]. unfold size, sizeField. replace (m_action m =? CMD_TIME_REQUEST) with false by lia. destruct (Z.leb_spec maxPayload (len (m_payload m))); lia. }
    set (p := firstn (Z.to_nat size) (m_payload m)) in *. rewrite <- app_assoc.
    set (m1 := set_m_Te 0 _).
    assert (M1 : (if 0 <? size then match take size (p ++ (countByte m :: flat_map (stringBytes h1) (allStrings m)) ++ rest) with Some (p0, rest0) => Some (set_m_payload p0 m1, rest0) | None => None end
                  else Some (m1, p ++ (countByte m :: flat_map (stringBytes h1) (allStrings m)) ++ rest))
               = Some (set_m_payload p m1, countByte m :: flat_map (stringBytes h1) (allStrings m) ++ rest)).
    { destruct (Z.ltb_spec 0 size).
      - rewrite take_app by exact FS. reflexivity.
      - assert (E : p = []) by (destruct p; [reflexivity|rewrite len_cons in FS; pose proof (len_nonneg p); lia]). rewrite E. cbn [app]. f_equal. f_equal.
        unfold set_m_payload, m1. rewrite <- P0. reflexivity. }
    rewrite M1. clear M1. cbn [bind]. set (m2 := set_m_payload p m1).
    replace (countByte m :: flat_map (stringBytes h1) (allStrings m) ++ rest) with ([countByte m] ++ (flat_map (stringBytes h1) (allStrings m) ++ rest)) by reflexivity.
    rewrite take_app by reflexivity. cbn [bind].
    assert (CB : countByte m = len (allStrings m)).
    { unfold countByte, allStrings. rewrite len_app. destruct W. pose proof (len_nonneg (m_strings m)). destruct (Z.leb_spec maxPayload (len (m_payload m))); rewrite ?len_cons, ?len_nil; rewrite Z.mod_small; lia. }
    assert (CV : fromMem true [countByte m] = len (allStrings m)) by (rewrite CB; unfold fromMem; cbn [leVal]; lia). rewrite CV.
    assert (SBC : serializedByteCount m = baseSize + size + strBytes (allStrings m)).
    { rewrite allStrings_bytes. unfold serializedByteCount, size, sizeField. replace (m_action m =? CMD_TIME_REQUEST) with false by lia.
      change (fold_right (fun s n => 4 + len s + n) 0 (m_strings m)) with (strBytes (m_strings m)). destruct (Z.leb_spec maxPayload (len (m_payload m))); lia. }
    assert (RES : (if size =? maxPayload then set_m_payload (m_payload m2 ++ last (allStrings m) []) (set_m_strings (removelast (allStrings m)) m2) else set_m_strings (allStrings m) m2) = arrives h1 h2 m).
    { assert (PM : size =? maxPayload = (maxPayload <=? len (m_payload m))).
      { unfold size, sizeField. replace (m_action m =? CMD_TIME_REQUEST) with false by lia. destruct (Z.leb_spec maxPayload (len (m_payload m))); lia. }
      rewrite PM. unfold arrives, carried. replace (m_action m =? CMD_TIME_REQUEST) with false by lia. unfold allStrings. unfold m2, m1. destruct (Z.leb_spec maxPayload (len (m_payload m))).
      - rewrite last_snoc, removelast_snoc. assert (PE : p ++ skipn (Z.to_nat maxPayload) (m_payload m) = m_payload m) by (unfold p; replace size with maxPayload by lia; apply firstn_skipn).
        set (tl := skipn (Z.to_nat maxPayload) (m_payload m)) in *. clearbody tl p. unfold set_m_payload at 2. cbn [m_payload]. rewrite PE. unfold set_m_sequenceID, set_m_Te, set_m_Tdemin, set_m_Tso; cbn. destruct (Bool.eqb h1 h2); reflexivity.
      - rewrite app_nil_r. assert (PE : p = m_payload m). { unfold p, size, sizeField. replace (m_action m =? CMD_TIME_REQUEST) with false by lia. replace (maxPayload <=? len (m_payload m)) with false by lia. unfold len. rewrite Nat2Z.id. apply firstn_all. }
        cbn. rewrite PE. unfold set_m_sequenceID, set_m_Te, set_m_Tdemin, set_m_Tso; cbn. destruct (Bool.eqb h1 h2); reflexivity. }
    destruct (Z.eqb_spec (len (allStrings m)) 0) as [Z0|Z0].
    + assert (E : allStrings m = []) by (destruct (allStrings m) as [|q qs]; [reflexivity|rewrite len_cons in Z0; pose proof (len_nonneg qs); lia]). rewrite E in *.
      rewrite <- RES. assert (NM : size =? maxPayload = false).
      { unfold allStrings in E. destruct (Z.leb_spec maxPayload (len (m_payload m))) as [L|L]; [apply app_eq_nil in E as [_ E]; discriminate|]. unfold size, sizeField. replace (m_action m =? CMD_TIME_REQUEST) with false by lia. replace (maxPayload <=? len (m_payload m)) with false by lia. lia. }
      rewrite NM. f_equal. change (strBytes []) with 0 in SBC. lia.
    + assert (P4 : 4 * len (allStrings m) <= strBytes (allStrings m)). { clear. induction (allStrings m) as [|x l IH]; [cbn; lia|]. change (strBytes (x :: l)) with (4 + len x + strBytes l). rewrite len_cons. pose proof (len_nonneg x). lia. }
      replace (serializedByteCount m + len rest <? baseSize + size + 4 * len (allStrings m)) with false by lia.
      assert (LN : Z.to_nat (len (allStrings m)) = length (allStrings m)) by (unfold len; lia). rewrite LN.
      rewrite readStrings_all.
      * cbn [app]. rewrite RES. f_equal. lia.
      * unfold allStrings. apply Forall_app. split; [apply W|]. destruct (Z.leb_spec maxPayload (len (m_payload m))); [|constructor]. constructor; [|constructor]. rewrite len_skipn by (unfold maxPayload in *; lia). destruct W. unfold maxPayload in *; lia.
      * lia.
Qed.
