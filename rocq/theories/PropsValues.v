(** * C24: values survive the binary value format *)
From Coq Require Import ZArith Bool List Lia.
From Verif Require Import HTime Action Codec CodecProofs Values.
Import ListNotations.
Open Scope Z_scope.

(** ** Specification *)
(** the values a program can hold: 64 bit words, signed 64 bit integers, and fewer than 2^32 elements (bytes of a string
    or elements of a vector) *)
Definition bits64 (z : Z) : Prop := 0 <= z < 2 ^ 64.
Definition shortEnough {A} (l : list A) : Prop := len l < 2 ^ 32.
Definition anyValue (v : value) : Prop :=
  match v with
  | VDouble d => bits64 d
  | VInt n => - 2 ^ 63 <= n < 2 ^ 63
  | VComplex a b => bits64 a /\ bits64 b
  | VString _ => True
  | VNamed _ d => bits64 d
  | VVector l => Forall bits64 l
  | VCVector l => Forall (fun c => bits64 (fst c) /\ bits64 (snd c)) l
  end.
Definition fits (v : value) : Prop :=
  match v with
  | VString s => shortEnough s
  | VNamed s _ => shortEnough s
  | VVector l => shortEnough l
  | VCVector l => shortEnough l
  | _ => True
  end.
Definition typeOf (v : value) : vtype :=
  match v with
  | VDouble _ => TDouble | VInt _ => TInt | VComplex _ _ => TComplex | VString _ => TString
  | VNamed _ _ => TNamed | VVector _ => TVector | VCVector _ => TCVector
  end.

(** ** Lemmas *)
Lemma word_len h v : len (word h v) = 8. Proof. exact (toMem_len h 8 v). Qed.
Lemma word_length h v : length (word h v) = 8%nat. Proof. pose proof (word_len h v). unfold len in H. lia. Qed.
Lemma word_back h v : unword h false (word h v) = v mod 2 ^ 64.
Proof. pose proof (mem_roundtrip h h 8 v) as H. rewrite Z.eqb_refl in H. exact H. Qed.
Lemma word_bits h v : bits64 v -> unword h false (word h v) = v.
Proof. intros H. rewrite word_back. apply Z.mod_small. exact H. Qed.
Lemma words_len h l : len (flat_map (word h) l) = 8 * len l.
Proof. induction l as [|a l IH]; [reflexivity|]. cbn [flat_map]. rewrite len_app, len_cons, word_len, IH. lia. Qed.
Definition flat (l : list (Z * Z)) : list Z := flat_map (fun c => [fst c; snd c]) l.
Lemma flat_words h l : flat_map (fun c => word h (fst c) ++ word h (snd c)) l = flat_map (word h) (flat l).
Proof. induction l as [|c l IH]; [reflexivity|]. cbn [flat_map flat app]. rewrite IH, app_assoc. reflexivity. Qed.
Lemma flat_len l : len (flat l) = 2 * len l.
Proof. induction l as [|c l IH]; [reflexivity|]. unfold flat in *. cbn [flat_map app]. rewrite !len_cons, IH. lia. Qed.
Lemma pairs_flat l : pairs (flat l) = l.
Proof. induction l as [|[a b] l IH]; [reflexivity|]. unfold flat in *. cbn [flat_map app pairs fst snd]. rewrite IH. reflexivity. Qed.
Lemma flat_bits l : Forall (fun c => bits64 (fst c) /\ bits64 (snd c)) l -> Forall bits64 (flat l).
Proof. induction 1 as [|c l [A B] _ IH]; [constructor|]. unfold flat in *. cbn [flat_map app]. constructor; [|constructor]; assumption. Qed.
Lemma words_back h l : Forall bits64 l -> words h false (length l) (flat_map (word h) l) = l.
Proof.
  induction 1 as [|a l A _ IH]; [reflexivity|]. cbn [length words flat_map].
  assert (E1 : forall r, firstn 8 (word h a ++ r) = word h a).
  { intros r. rewrite <- (word_length h a). rewrite firstn_app, firstn_all, Nat.sub_diag. cbn [firstn]. apply app_nil_r. }
  assert (E2 : forall r, skipn 8 (word h a ++ r) = r).
  { intros r. rewrite <- (word_length h a). rewrite skipn_app, skipn_all, Nat.sub_diag. reflexivity. }
  rewrite E1, E2, word_bits by exact A. f_equal. exact IH.
Qed.
Lemma header_size c n : getDataSize (addCodeAndSize c n) = Some (n mod 2 ^ 32).
Proof.
  unfold addCodeAndSize, getDataSize. f_equal. change (2 ^ 32) with 4294967296.
  Z.to_euclidean_division_equations. lia.
Qed.
Lemma getDataSize_app c n r : getDataSize (addCodeAndSize c n ++ r) = Some (n mod 2 ^ 32).
Proof. rewrite <- (header_size c n). reflexivity. Qed.
Lemma at_app a x r off n : len a = off -> len x = n -> at_ (a ++ x ++ r) off n = Some x.
Proof.
  intros A X. unfold at_. assert (E : Z.to_nat off = length a) by (unfold len in A; lia).
  rewrite E, skipn_app, skipn_all, Nat.sub_diag. cbn [skipn app]. rewrite take_app by exact X. reflexivity.
Qed.
Lemma at_end a x off n : len a = off -> len x = n -> at_ (a ++ x) off n = Some x.
Proof. intros A X. rewrite <- (app_nil_r x) at 1. apply at_app; assumption. Qed.
Lemma at_at a x r n off m : len a = off -> len x = n -> off + n = m -> forall y k, len y = k -> at_ (a ++ x ++ y ++ r) m k = Some y.
Proof. intros A X M y k Y. rewrite (app_assoc a x). apply at_app; [rewrite len_app; lia|exact Y]. Qed.

(** the bytes written are as many as were reserved *)
Lemma written_len h v : len (convertToBinary h v) = getBinaryLength v.
Proof.
  destruct v; cbn [convertToBinary getBinaryLength]; rewrite !len_app, ?word_len, ?flat_words, ?words_len, ?flat_len;
    change (len (addCodeAndSize _ _)) with 8; lia.
Qed.
Lemma getBinaryLength_nonneg v : 0 <= getBinaryLength v.
Proof. rewrite <- (written_len true). apply len_nonneg. Qed.
Lemma resize_len n l : 0 <= n -> len (resize n l) = n.
Proof. intros N. unfold resize, len. rewrite app_length, firstn_length, repeat_length. lia. Qed.
Lemma convert_exact h v store : convert h v store = convertToBinary h v.
Proof.
  unfold convert. rewrite skipn_all2; [apply app_nil_r|].
  pose proof (resize_len (getBinaryLength v) store (getBinaryLength_nonneg v)) as A.
  pose proof (written_len h v) as B. unfold len in A, B. lia.
Qed.

(** ** C24 *)
(** A value of any type, written to a buffer of any earlier contents, is read back as the identical value, whatever
    follows it in the memory. *)
Theorem C24_value_round_trip h v store beyond :
  anyValue v -> fits v -> convertFromBinary h (typeOf v) (convert h v store ++ beyond) = Some v.
Proof.
  intros A F. rewrite convert_exact.
  destruct v as [d|n|re im|s|s d|l|l]; cbn [convertToBinary typeOf anyValue fits] in *; unfold convertFromBinary;
    rewrite <- ?app_assoc; match goal with |- context [swapped ?d] => change (swapped d) with (Some false) end; cbn [obind].
  - rewrite (at_app _ (word h d)) by (reflexivity || apply word_len). cbn [obind]. rewrite word_bits by exact A. reflexivity.
  - rewrite (at_app _ (word h n)) by (reflexivity || apply word_len). cbn [obind]. rewrite word_back.
    change (2 ^ 64) with (256 ^ Z.of_nat 8). rewrite signed_mod; [reflexivity|lia|exact A].
  - rewrite (at_app _ (word h re)) by (reflexivity || apply word_len). cbn [obind].
    rewrite (at_at _ (word h re) beyond 8 8) by (reflexivity || apply word_len). cbn [obind].
    rewrite !word_bits by apply A. reflexivity.
  - rewrite getDataSize_app, Z.mod_small by (split; [apply len_nonneg|exact F]). cbn [obind].
    rewrite at_app by reflexivity. reflexivity.
  - rewrite (at_app _ (word h d)) by (reflexivity || apply word_len). cbn [obind].
    rewrite getDataSize_app, Z.mod_small by (split; [apply len_nonneg|exact F]). cbn [obind].
    rewrite (at_at _ (word h d) beyond 8 8) by (reflexivity || apply word_len). cbn [obind]. rewrite word_bits by exact A. reflexivity.
  - rewrite getDataSize_app, Z.mod_small by (split; [apply len_nonneg|exact F]). cbn [obind].
    rewrite at_app by (reflexivity || (rewrite words_len; lia)). cbn [obind]. unfold len. rewrite Nat2Z.id, words_back by exact A. reflexivity.
  - rewrite getDataSize_app, Z.mod_small by (split; [apply len_nonneg|exact F]). cbn [obind]. rewrite flat_words.
    rewrite at_app by (reflexivity || (rewrite words_len, flat_len; lia)). cbn [obind]. rewrite <- flat_len. unfold len.
    rewrite Nat2Z.id, words_back by (apply flat_bits; exact A). rewrite pairs_flat. reflexivity.
Qed.
Print Assumptions C24_value_round_trip.

(** The type of the value is found from the bytes alone, and the bytes are those reserved for the value: nothing is written
    outside the buffer and nothing of its earlier contents is left in it. *)
Theorem C24_type_detected h v store : detectType (convert h v store) = Some (typeOf v).
Proof. rewrite convert_exact. destruct v; reflexivity. Qed.
Print Assumptions C24_type_detected.
Theorem C24_size_reserved h v store : len (convert h v store) = getBinaryLength v /\ len (convertToBinary h v) = getBinaryLength v /\ forall other, convert h v other = convert h v store.
Proof. split; [rewrite convert_exact; apply written_len|]. split; [apply written_len|]. intros other. rewrite !convert_exact. reflexivity. Qed.
Print Assumptions C24_size_reserved.

(** Different values, of the same or of different types, have different bytes. *)
Theorem C24_values_distinguished h v w s t :
  anyValue v -> fits v -> anyValue w -> fits w -> convert h v s = convert h w t -> v = w.
Proof.
  intros A F A' F' E. assert (T : typeOf v = typeOf w).
  { pose proof (C24_type_detected h v s) as X. pose proof (C24_type_detected h w t) as Y. congruence. }
  pose proof (C24_value_round_trip h v s [] A F) as X. pose proof (C24_value_round_trip h w t [] A' F') as Y. rewrite E, T in X. congruence.
Qed.
Print Assumptions C24_values_distinguished.

(** Beyond 2^32 bytes a string is silently cut: only its length modulo 2^32 is written, and that many bytes are read back. *)
Theorem C24_long_string_cut_refuted h s store :
  2 ^ 32 <= len s -> convertFromBinary h TString (convert h (VString s) store) = Some (VString (firstn (Z.to_nat (len s mod 2 ^ 32)) s)) /\
  firstn (Z.to_nat (len s mod 2 ^ 32)) s <> s.
Proof.
  intros L. pose proof (Z.mod_pos_bound (len s) (2 ^ 32) ltac:(lia)) as B. split.
  - rewrite convert_exact. cbn [convertToBinary]. unfold convertFromBinary.
    change (swapped (addCodeAndSize stringCode (len s) ++ s)) with (Some false). cbn [obind]. rewrite getDataSize_app. cbn [obind].
    rewrite <- (firstn_skipn (Z.to_nat (len s mod 2 ^ 32)) s) at 1 2. rewrite firstn_skipn at 1.
    rewrite (at_app (addCodeAndSize stringCode (len s))); [reflexivity|reflexivity|]. apply len_firstn. lia.
  - intros E. apply (f_equal (@len Z)) in E. rewrite len_firstn in E; lia.
Qed.
Print Assumptions C24_long_string_cut_refuted.

(** The format has a mark for the byte order, but it is never set when writing: a value written on a host of the other byte
    order is read with its bytes reversed. *)
Theorem C24_other_byte_order_refuted :
  exists v, anyValue v /\ fits v /\ forall h, convertFromBinary (negb h) (typeOf v) (convert h v []) <> Some v.
Proof. exists (VInt 1). split; [cbn; lia|]. split; [exact I|]. intros [|]; vm_compute; discriminate. Qed.
Print Assumptions C24_other_byte_order_refuted.

(** ** What reading touches *)
(** the number of bytes the header of the data promises for the type *)
Definition promised (t : vtype) (data : list Z) : Z :=
  match t, getDataSize data with
  | TDouble, _ | TInt, _ => 16
  | TComplex, _ => 24
  | TString, Some n => 8 + n
  | TNamed, Some n => 16 + n
  | TVector, Some n => 8 + 8 * n
  | TCVector, Some n => 8 + 16 * n
  | _, _ => 8
  end.
Definition isByte (b : Z) : Prop := 0 <= b < 256.
Lemma at_ok data off n : 0 <= off -> 0 <= n -> off + n <= len data -> exists b, at_ data off n = Some b.
Proof.
  intros O N L. unfold at_. destruct (take_ok n (skipn (Z.to_nat off) data)) as (a & b & E & _); [rewrite len_skipn; lia|]. rewrite E. eauto.
Qed.
Lemma getDataSize_ok data : Forall isByte data -> 8 <= len data -> exists n, getDataSize data = Some n /\ 0 <= n < 2 ^ 32.
Proof.
  intros B L. do 8 (destruct data as [|? data]; [cbv in L; exfalso; apply L; reflexivity|]).
  eexists. split; [reflexivity|]. repeat match goal with H : Forall _ (_ :: _) |- _ => inversion H; clear H; subst end. unfold isByte in *. lia.
Qed.
(** Reading data of any contents stays inside it when it is as long as its header promises. *)
Theorem C24_read_stays_inside h t data :
  t <> TCustom -> Forall isByte data -> 8 <= len data -> promised t data <= len data -> exists v, convertFromBinary h t data = Some v /\ typeOf v = t.
Proof.
  intros NC B L P. destruct (getDataSize_ok data B L) as (n & E & N). unfold promised in P. rewrite E in P.
  assert (S' : exists sw, swapped data = Some sw) by (destruct data; [cbv in L; exfalso; apply L; reflexivity|eexists; reflexivity]).
  destruct S' as (sw & S'). unfold convertFromBinary. rewrite S'. cbn [obind]. destruct t; rewrite ?E; cbn [obind]; try congruence;
    repeat (match goal with |- context [at_ data ?o ?k] => destruct (at_ok data o k) as (? & ->); [lia|lia|lia|] end; cbn [obind]);
    eexists; split; reflexivity.
Qed.
Print Assumptions C24_read_stays_inside.
(** The length is not checked: a shorter block is read beyond its end. *)
Lemma at_out data off n : 0 <= off <= len data -> len data < off + n -> at_ data off n = None.
Proof.
  intros O L. unfold at_, take. rewrite len_skipn by lia. assert (H0 : (len data - off <? n) = true) by (apply Z.ltb_lt; lia). rewrite H0. reflexivity.
Qed.
Theorem C24_short_data_read_outside_refuted h t data :
  t <> TCustom -> Forall isByte data -> 8 <= len data -> len data < promised t data -> convertFromBinary h t data = None.
Proof.
  intros NC B L P. destruct (getDataSize_ok data B L) as (n & E & N). unfold promised in P. rewrite E in P.
  assert (S' : exists sw, swapped data = Some sw) by (destruct data; [cbv in L; exfalso; apply L; reflexivity|eexists; reflexivity]).
  destruct S' as (sw & S'). unfold convertFromBinary. rewrite S'. cbn [obind].
  destruct t; rewrite ?E; cbn [obind]; try congruence; try (rewrite at_out by lia; reflexivity);
    (destruct (Z.ltb_spec (len data) 16); [rewrite (at_out _ 8 8) by lia; reflexivity|];
     destruct (at_ok data 8 8) as (? & ->); [lia|lia|lia|]; cbn [obind]; rewrite at_out by lia; reflexivity).
Qed.
Print Assumptions C24_short_data_read_outside_refuted.

(** ** The hypotheses are met *)
Example C24_concrete : let v := VNamed [104; 105] 4613303441197561744 in
  anyValue v /\ fits v /\ convert true v [7; 7; 7] = [174; 0; 0; 0; 0; 0; 0; 2; 144; 247; 170; 149; 9; 191; 5; 64; 104; 105] /\
  convertFromBinary true TNamed (convert true v [7; 7; 7]) = Some v.
Proof. cbv zeta. split; [unfold anyValue, bits64; lia|]. split; [reflexivity|]. split; reflexivity. Qed.
Example C24_concrete_vector : let v := VCVector [(1, 2); (3, 4)] in
  anyValue v /\ fits v /\ convertFromBinary false TCVector (convert false v []) = Some v.
Proof. cbv zeta. split; [cbn; unfold bits64; repeat constructor; cbn; lia|]. split; [reflexivity|]. reflexivity. Qed.
Example C24_concrete_short : let data := [108; 0; 0; 0; 0; 0; 0; 9; 1; 1] in
  Forall isByte data /\ 8 <= len data /\ len data < promised TVector data /\ convertFromBinary true TVector data = None.
Proof. cbv zeta. split; [unfold isByte; repeat constructor; lia|]. split; [vm_compute; discriminate|]. split; reflexivity. Qed.
