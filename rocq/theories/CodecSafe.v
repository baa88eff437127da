(** * The decoder on arbitrary bytes (proofs) *)
From Coq Require Import ZArith Bool List Lia ZifyBool.
From Verif Require Import HTime Action Codec CodecProofs.
Import ListNotations.
Open Scope Z_scope.

Definition byte (b : Z) : Prop := 0 <= b < 256.
Definition bytes (l : list Z) : Prop := Forall byte l.

Lemma leVal_nonneg l : bytes l -> 0 <= leVal l.
Proof. induction 1 as [|b l B F IH]; cbn [leVal]; [lia|]. unfold byte in B. lia. Qed.
Lemma bytes_rev l : bytes l -> bytes (rev l).
Proof. intros F. apply Forall_rev. exact F. Qed.
Lemma fromMem_nonneg h l : bytes l -> 0 <= fromMem h l.
Proof. intros F. unfold fromMem. destruct h; apply leVal_nonneg; auto using bytes_rev. Qed.
Lemma swapMem_bytes s l : bytes l -> bytes (swapMem s l).
Proof. intros F. unfold swapMem. destruct s; auto using bytes_rev. Qed.
Lemma bytes_app a b : bytes (a ++ b) <-> bytes a /\ bytes b.
Proof. apply Forall_app. Qed.
Lemma bytes_firstn n l : bytes l -> bytes (firstn n l).
Proof. intros F. rewrite <- (firstn_skipn n l) in F. apply bytes_app in F. apply F. Qed.
Lemma bytes_skipn n l : bytes l -> bytes (skipn n l).
Proof. intros F. rewrite <- (firstn_skipn n l) in F. apply bytes_app in F. apply F. Qed.

(** a reading is usable, or reported by an invalid command and no bytes used *)
Definition verdict (bs : Z) (m : amsg) (u : Z) : Prop := (u = 0 /\ m_action m = CMD_INVALID) \/ (baseSize <= u <= bs).
Lemma readStrings_safe h swap bs n : forall tsize rest got k m,
  bytes rest -> len rest = bs - (tsize - 4 * Z.of_nat n) -> tsize <= bs ->
  (forall strs t, tsize <= t <= bs -> exists m' u, k strs t = Done m' u /\ verdict bs m' u) ->
  0 <= bs ->
  exists m' u, readStrings h swap bs n tsize rest got k m = Done m' u /\ verdict bs m' u.
Proof.
  induction n as [|n IH]; intros tsize rest got k m F L B K P.
  - cbn [readStrings]. apply K. lia.
  - cbn [readStrings]. destruct (take_ok 4 rest ltac:(lia)) as (b & r & E & LB & LR & EQ). rewrite E. cbn [bind].
    subst rest. apply bytes_app in F as [FB FR]. set (ss := fromMem h (swapMem swap b)).
    assert (SS : 0 <= ss) by (apply fromMem_nonneg, swapMem_bytes, FB).
    destruct (Z.ltb_spec bs (tsize + ss)); [eexists _, _; split; [reflexivity|unfold verdict, baseSize; first [left; split; reflexivity | right; lia]]|].
    destruct (take_ok ss r ltac:(lia)) as (s & r' & E' & LS & LR' & EQ'). rewrite E'. cbn [bind]. subst r. apply bytes_app in FR as [_ FR'].
    apply IH; auto; try lia. intros strs t T. apply K. lia.
Qed.

Ltac grab :=
  match goal with |- context [bind (take ?n ?l) _] =>
    let b := fresh "b" in let r := fresh "rest" in let E := fresh "E" in let Q := fresh "Q" in
    destruct (take_ok n l ltac:(lia)) as (b & r & E & ? & ? & Q); rewrite E; cbn [bind]; clear E;
    match goal with F : bytes l |- _ => let FB := fresh "F" in let FR := fresh "F" in
      rewrite Q in F; apply bytes_app in F as [FB FR] end; clear Q
  end.

(** reading the fields stays within the buffer *)
Lemma fromFields_safe h m0 buf : bytes buf -> baseSize <= len buf ->
  exists m u, fromFields h m0 buf = Done m u /\ verdict (len buf) m u.
Proof.
  intros F L. unfold fromFields. unfold baseSize in L. remember (len buf) as bs eqn:BS.
  destruct (take_ok 4 buf ltac:(lia)) as (hd & rest & E & LH & LR & EQ). rewrite E. cbn [bind]. clear E. rewrite <- BS in LR. subst buf. apply bytes_app in F as [FH F].
  destruct hd as [|b0 [|b1 [|b2 [|b3 [|x xs]]]]]; try (unfold len in LH; cbn [length] in LH; lia).
  set (size := 65536 * b1 + 256 * b2 + b3). assert (SZ : 0 <= size).
  { inversion_clear FH as [|? ? _ FH1]. inversion_clear FH1 as [|? ? B1 FH2]. inversion_clear FH2 as [|? ? B2 FH3]. inversion_clear FH3 as [|? ? B3 _]. unfold byte in *. lia. }
  clearbody size. clear FH LH.
  destruct (Z.ltb_spec bs (baseSize + size)) as [B|B]; [eexists _, _; split; [reflexivity|unfold verdict, baseSize; first [left; split; reflexivity | right; lia]]|]. unfold baseSize in B.
  assert (BN : 0 <= bs) by lia. clear BS.
  do 10 grab.
  match goal with |- context [set_m_actionTime ?t ?x] => set (mm := set_m_actionTime t x) end.
  assert (FIN : forall m tsize rest, bytes rest -> len rest = bs - (tsize - size - 1) -> tsize <= bs -> baseSize <= tsize ->
    exists m' u, (let* (m, rest) := (if 0 <? size then match take size rest with Some (p, rest) => Some (set_m_payload p m, rest) | None => None end else Some (m, rest)) in
          let* (c, rest) := take 1 rest in
          let count := fromMem true c in
          if count =? 0 then Done (set_m_strings [] m) tsize
          else
            let tsize := tsize + 4 * count in
            if bs <? tsize then Done (invalid m) 0
            else readStrings h (negb (b0 =? endianByte h)) bs (Z.to_nat count) tsize rest []
              (fun strs tsize =>
                 Done (if size =? maxPayload
                       then set_m_payload (m_payload m ++ last strs []) (set_m_strings (removelast strs) m)
                       else set_m_strings strs m) tsize) m) = Done m' u /\ verdict bs m' u).
  { clear -SZ BN. intros m tsize rest F LR T T0. unfold baseSize in T0.
    assert (P : exists m' rest', (if 0 <? size then match take size rest with Some (p, rest) => Some (set_m_payload p m, rest) | None => None end else Some (m, rest)) = Some (m', rest') /\ bytes rest' /\ len rest' = bs - (tsize - 1)).
    { destruct (Z.ltb_spec 0 size).
      - destruct (take_ok size rest ltac:(lia)) as (p & r & E & LP & LR' & EQ). rewrite E. eexists _, _. split; [reflexivity|]. subst rest. apply bytes_app in F as [_ F]. split; [exact F|lia].
      - eexists _, _. split; [reflexivity|]. split; [exact F|lia]. }
    destruct P as (m' & r' & E & F' & L'). rewrite E. cbn [bind]. grab.
    assert (CN : 0 <= fromMem true b) by (apply fromMem_nonneg; assumption). set (count := fromMem true b) in *. cbv zeta.
    destruct (Z.eqb_spec count 0); [eexists _, _; split; [reflexivity|unfold verdict, baseSize; first [left; split; reflexivity | right; lia]]|].
    destruct (Z.ltb_spec bs (tsize + 4 * count)); [eexists _, _; split; [reflexivity|unfold verdict, baseSize; first [left; split; reflexivity | right; lia]]|].
    apply readStrings_safe; auto; try lia. intros strs t ?. eexists _, _. split; [reflexivity|right; unfold baseSize; lia]. }
  destruct (m_action mm =? CMD_TIME_REQUEST).
  - destruct (Z.ltb_spec bs (baseSize + size + 24)) as [B2|B2]; [eexists _, _; split; [reflexivity|unfold verdict, baseSize; first [left; split; reflexivity | right; lia]]|]. unfold baseSize in *.
    do 3 grab. apply FIN; auto; lia.
  - apply FIN; unfold baseSize in *; auto; lia.
Qed.

Lemma nth_ok (l : list Z) i : 0 <= i < len l -> exists b, nth_error l (Z.to_nat i) = Some b.
Proof. intros B. destruct (nth_error l (Z.to_nat i)) as [b|] eqn:E; [eauto|]. apply nth_error_None in E. unfold len in B. lia. Qed.

(** the shape of a frame: lead byte, length of lead and body in three bytes, body, two tail bytes *)
Definition frame (body : list Z) : list Z := LEAD :: sizeBytes (4 + len body) ++ body ++ [TAIL1; TAIL2].
(** a buffer starts with a frame *)
Definition framed (buf body rest : list Z) : Prop := 4 + len body < 16777216 /\ buf = frame body ++ rest.

Lemma frame_len body : len (frame body) = len body + 6.
Proof. unfold frame. rewrite len_cons, !len_app. change (len (sizeBytes (4 + len body))) with 3. change (len [TAIL1; TAIL2]) with 2. lia. Qed.

Section Inner.
Variable json : amsg -> list Z -> amsg * bool.
Variable inner : amsg -> list Z -> outcome.
(** what the reader does with a frame's body *)
Definition body (m0 : amsg) (sub : list Z) (size : Z) : outcome :=
  match inner m0 sub with
  | Done m1 used => if used =? 0 then let '(m2, ok) := json m1 sub in Done m2 (if ok then size + 2 else 0) else Done m1 (size + 2)
  | other => other
  end.

Lemma skipn4 {A} (a b c d : A) l : skipn 4 (a :: b :: c :: d :: l) = l. Proof. reflexivity. Qed.
Lemma size_bytes b1 b2 b3 : byte b1 -> byte b2 -> byte b3 -> sizeBytes ((b1 * 256 + b2) * 256 + b3) = [b1; b2; b3].
Proof.
  intros B1 B2 B3. unfold byte in *. unfold sizeBytes. f_equal; [|f_equal; [|f_equal]].
  - replace (((b1 * 256 + b2) * 256 + b3) / 65536) with b1; [apply Z.mod_small; lia|]. apply Z.div_unique with (b2 * 256 + b3); lia.
  - replace (((b1 * 256 + b2) * 256 + b3) / 256) with (b1 * 256 + b2); [|apply Z.div_unique with b3; lia]. rewrite Z.add_comm, Z_mod_plus_full. apply Z.mod_small. lia.
  - rewrite Z.add_comm, Z_mod_plus_full. apply Z.mod_small. lia.
Qed.
Lemma nth_tail (l : list Z) n a b : nth_error l n = Some a -> nth_error l (S n) = Some b -> l = firstn n l ++ [a; b] ++ skipn (S (S n)) l.
Proof.
  intros A B. apply nth_error_split in A as (l1 & l2 & -> & <-). rewrite firstn_app, Nat.sub_diag, firstn_all. cbn [firstn]. rewrite app_nil_r. f_equal. cbn [app]. f_equal.
  replace (nth_error (l1 ++ a :: l2) (S (length l1))) with (nth_error l2 0) in B.
  2:{ rewrite nth_error_app2 by lia. replace (S (length l1) - length l1)%nat with 1%nat by lia. reflexivity. }
  destruct l2 as [|c l2]; [discriminate|]. cbn in B. injection B as ->. f_equal.
  replace (S (S (length l1))) with (length l1 + 2)%nat by lia. rewrite skipn_app, skipn_all2 by lia. cbn [app]. replace (length l1 + 2 - length l1)%nat with 2%nat by lia. reflexivity.
Qed.
(** either the buffer starts with a frame and its body is read, or nothing is used and the message is unchanged *)
Lemma depack_cases m0 buf : bytes buf -> buf <> [] ->
  (exists sub rest, framed buf sub rest /\ depackWith json inner m0 buf = body m0 sub (4 + len sub)) \/
  ((forall sub rest, ~ framed buf sub rest) /\ depackWith json inner m0 buf = Done m0 0).
Proof.
  intros F NE. unfold depackWith. destruct buf as [|b0 buf]; [contradiction|]. cbn [nth_error bind].
  assert (NO : forall d : outcome, (forall sub rest, ~ framed (b0 :: buf) sub rest) ->
      (exists sub rest, framed (b0 :: buf) sub rest /\ Done m0 0 = body m0 sub (4 + len sub)) \/ ((forall sub rest, ~ framed (b0 :: buf) sub rest) /\ Done m0 0 = Done m0 0)) by (intros _ H; right; auto).
  destruct (Z.eqb_spec b0 LEAD) as [->|N0]; cbn [negb].
  2:{ apply (NO Fault). intros sub rest [_ E]. injection E as E _. contradiction. }
  destruct (Z.ltb_spec (len (LEAD :: buf)) 6) as [S6|S6].
  { apply (NO Fault). intros sub rest [_ E]. rewrite E, len_app, frame_len in S6. pose proof (len_nonneg sub). pose proof (len_nonneg rest). lia. }
  destruct buf as [|b1 [|b2 [|b3 buf]]]; try (unfold len in S6; cbn [length] in S6; lia). cbn [nth_error bind].
  inversion_clear F as [|? ? _ F1]. inversion_clear F1 as [|? ? B1 F2]. inversion_clear F2 as [|? ? B2 F3]. inversion_clear F3 as [|? ? B3 F4].
  pose proof (size_bytes b1 b2 b3 B1 B2 B3) as SB. set (size := (b1 * 256 + b2) * 256 + b3) in *. set (all := LEAD :: b1 :: b2 :: b3 :: buf) in *.
  assert (SV : 0 <= size < 16777216) by (unfold size, byte in *; lia).
  assert (FR : forall sub rest, framed all sub rest -> size = 4 + len sub /\ buf = sub ++ [TAIL1; TAIL2] ++ rest).
  { intros sub rest [LT E]. unfold all, frame in E. pose proof (len_nonneg sub) as LN. pose proof (sizeBytes_val (4 + len sub) ltac:(lia)) as SV'. unfold sizeBytes in E.
    set (v1 := ((4 + len sub) / 65536) mod 256) in *. set (v2 := ((4 + len sub) / 256) mod 256) in *. set (v3 := (4 + len sub) mod 256) in *. clearbody v1 v2 v3.
    cbn [app] in E. injection E as E1 E2 E3 E4. split; [|rewrite <- app_assoc in E4; exact E4].
    unfold size. rewrite E1, E2, E3. lia. }
  destruct (Z.ltb_spec (len all) (size + 2)) as [SH|SH].
  { apply (NO Fault). intros sub rest H. destruct (FR _ _ H) as [E1 E2]. unfold all in SH. rewrite !len_cons, E2, !len_app in SH. change (len [TAIL1; TAIL2]) with 2 in SH. pose proof (len_nonneg rest). lia. }
  destruct (nth_ok all size ltac:(lia)) as (t1 & T1). rewrite T1. cbn [bind].
  assert (ATT : forall sub rest, framed all sub rest -> nth_error all (Z.to_nat size) = Some TAIL1 /\ nth_error all (Z.to_nat (size + 1)) = Some TAIL2).
  { intros sub rest H. destruct (FR _ _ H) as [E1 E2]. unfold all. rewrite E2. replace (Z.to_nat size) with (4 + length sub)%nat by (unfold len in E1; lia). replace (Z.to_nat (size + 1)) with (4 + S (length sub))%nat by (unfold len in E1; lia).
    assert (N1 : nth_error (sub ++ [TAIL1; TAIL2] ++ rest) (length sub) = Some TAIL1) by (rewrite nth_error_app2, Nat.sub_diag by lia; reflexivity).
    assert (N2 : nth_error (sub ++ [TAIL1; TAIL2] ++ rest) (S (length sub)) = Some TAIL2) by (rewrite nth_error_app2 by lia; replace (S (length sub) - length sub)%nat with 1%nat by lia; reflexivity).
    split; [exact N1|exact N2]. }
  destruct (Z.eqb_spec t1 TAIL1) as [->|NT]; cbn [negb].
  2:{ apply (NO Fault). intros sub rest H. destruct (ATT _ _ H) as [A _]. congruence. }
  destruct (nth_ok all (size + 1) ltac:(lia)) as (t2 & T2). rewrite T2. cbn [bind].
  destruct (Z.eqb_spec t2 TAIL2) as [->|NT]; cbn [negb].
  2:{ apply (NO Fault). intros sub rest H. destruct (ATT _ _ H) as [_ A]. congruence. }
  destruct (Z.ltb_spec size 4) as [S4|S4].
  { exfalso. assert (C : size = 0 \/ size = 1 \/ size = 2 \/ size = 3) by lia. unfold all in T1. destruct C as [C|[C|[C|C]]]; rewrite C in T1; cbn [Z.to_nat Pos.to_nat Pos.iter_op Nat.add nth_error] in T1.
    - injection T1 as T1. discriminate.
    - change (Some b1 = Some TAIL1) in T1. injection T1 as T1. unfold size, byte, TAIL1 in *. lia.
    - change (Some b2 = Some TAIL1) in T1. injection T1 as T1. unfold size, byte, TAIL1 in *. lia.
    - change (Some b3 = Some TAIL1) in T1. injection T1 as T1. unfold size, byte, TAIL1 in *. lia. }
  left. set (sub := firstn (Z.to_nat (size - 4)) (skipn 4 all)). exists sub, (skipn (S (S (Z.to_nat (size - 4)))) buf).
  assert (SL : len sub = size - 4). { unfold sub, all. rewrite skipn4. apply len_firstn. unfold all in SH. rewrite !len_cons in SH. lia. }
  split; [|unfold body; replace (4 + len sub) with size by lia; reflexivity].
  split; [lia|]. unfold frame. replace (sizeBytes (4 + len sub)) with [b1; b2; b3] by (rewrite <- SB; f_equal; lia). cbn [app]. unfold all. f_equal. f_equal. f_equal. f_equal. rewrite <- app_assoc. unfold sub, all. rewrite skipn4.
  apply nth_tail.
  - replace (Z.to_nat size) with (4 + Z.to_nat (size - 4))%nat in T1 by lia. exact T1.
  - replace (Z.to_nat (size + 1)) with (4 + S (Z.to_nat (size - 4)))%nat in T2 by lia. exact T2.
Qed.
End Inner.

Lemma frame_bytes sub rest buf : framed buf sub rest -> bytes buf -> bytes sub /\ bytes rest.
Proof.
  intros [_ ->] F. apply bytes_app in F as [F R]. split; [|exact R]. unfold frame in F. change (LEAD :: sizeBytes (4 + len sub) ++ sub ++ [TAIL1; TAIL2]) with ((LEAD :: sizeBytes (4 + len sub)) ++ (sub ++ [TAIL1; TAIL2])) in F.
  apply bytes_app in F as [_ F1]. apply bytes_app in F1 as [F1 _]. exact F1.
Qed.
Lemma depack_safe json inner m0 buf : bytes buf -> buf <> [] ->
  (forall m sub, bytes sub -> len sub + 6 <= len buf -> exists m' u, inner m sub = Done m' u /\ 0 <= u) ->
  exists m' u, depackWith json inner m0 buf = Done m' u /\ 0 <= u <= len buf.
Proof.
  intros F NE I. destruct (depack_cases json inner m0 buf F NE) as [(sub & rest & FR & E)|[_ E]]; rewrite E; [|eexists _, _; split; [reflexivity|pose proof (len_nonneg buf); lia]].
  destruct (frame_bytes _ _ _ FR F) as [FS _]. assert (L : len buf = len sub + 6 + len rest) by (destruct FR as [_ ->]; rewrite len_app, frame_len; lia). pose proof (len_nonneg rest). pose proof (len_nonneg sub).
  destruct (I m0 sub FS ltac:(lia)) as (m' & u & EI & U). unfold body. rewrite EI. destruct (u =? 0).
  - destruct (json m' sub) as [m2 ok]. eexists _, _. split; [reflexivity|]. destruct ok; lia.
  - eexists _, _. split; [reflexivity|lia].
Qed.
Lemma fromBytes_safe json h fuel : forall m0 buf, bytes buf -> (length buf < fuel)%nat ->
  exists m' u, fromBytes json fuel h m0 buf = Done m' u /\ 0 <= u <= len buf.
Proof.
  induction fuel as [|k IH]; intros m0 buf F L; [lia|]. cbn [fromBytes]. pose proof (len_nonneg buf).
  destruct (Z.ltb_spec (len buf) baseSize) as [B|B]; [eexists _, _; split; [reflexivity|lia]|].
  destruct buf as [|b0 buf']; [cbn in B; unfold baseSize in B; lia|]. set (buf := b0 :: buf') in *. change (nth_error buf 0) with (Some b0). cbn [bind].
  assert (D : exists m1 u1, (if b0 =? LEAD then depackWith json (fromBytes json k h) m0 buf else Done m0 0) = Done m1 u1 /\ 0 <= u1 <= len buf).
  { destruct (b0 =? LEAD); [|eexists _, _; split; [reflexivity|lia]]. apply depack_safe; [exact F|discriminate|]. intros m sub FS LS. destruct (IH m sub FS) as (m' & u & E & U). { unfold len in LS. lia. } exists m', u. split; [exact E|lia]. }
  destruct D as (m1 & u1 & E & U). rewrite E. destruct (Z.ltb_spec 0 u1); [eexists _, _; split; [reflexivity|lia]|].
  destruct (b0 =? BRACE); [eexists _, _; split; [reflexivity|lia]|]. destruct (fromFields_safe h m1 buf F B) as (m2 & u2 & E2 & [[U2 _]|U2]); exists m2, u2; (split; [exact E2|unfold baseSize in *; lia]).
Qed.
