(** * The binary format of published values (model)

    src/helics/application_api/ValueConverter.cpp and ValueConverter.hpp.  Floating point numbers are their 64 bit
    patterns, strings are lists of bytes.  Reading outside the data is an explicit outcome ([None]).
    Not modelled: vectors of strings, which go through the JSON library. *)
From Coq Require Import ZArith Bool List Lia.
From Verif Require Import HTime Action Codec.
Import ListNotations.
Open Scope Z_scope.

(** the types with a binary form of their own (helicsTypes.hpp DataType) *)
Inductive vtype := TDouble | TInt | TComplex | TString | TNamed | TVector | TCVector | TCustom.
Inductive value :=
| VDouble (bits : Z)
| VInt (n : Z)
| VComplex (re im : Z)
| VString (s : list Z)
| VNamed (name : list Z) (bits : Z)
| VVector (l : list Z)
| VCVector (l : list (Z * Z)).

(** ValueConverter.cpp:69-76 the type codes *)
Definition doubleCode : Z := 0xB0.
Definition intCode : Z := 0x50.
Definition complexCode : Z := 0x12.
Definition stringCode : Z := 0x0E.
Definition vectorCode : Z := 0x6C.
Definition npCode : Z := 0xAE.
Definition cvCode : Z := 0x62.
Definition customCode : Z := 0xF4.

(** ValueConverter.cpp:87-96 addCodeAndSize *)
Definition addCodeAndSize (code size : Z) : list Z :=
  [code; 0; 0; 0; (size / 16777216) mod 256; (size / 65536) mod 256; (size / 256) mod 256; size mod 256].

(** a 64 bit word in the memory of the host: [memcpy] of a double or of an integer *)
Definition word (host : bool) (v : Z) : list Z := toMem host 8 v.

(** ValueConverter.cpp:98-170 convertToBinary: the bytes written from [data] on.  The array forms (147-154, 165-170)
    write the same bytes as the vector forms (138-145, 156-163). *)
Definition convertToBinary (host : bool) (v : value) : list Z :=
  match v with
  | VDouble d => addCodeAndSize doubleCode 1 ++ word host d
  | VInt n => addCodeAndSize intCode 1 ++ word host n
  | VComplex re im => addCodeAndSize complexCode 2 ++ word host re ++ word host im
  | VString s => addCodeAndSize stringCode (len s) ++ s
  | VNamed name d => addCodeAndSize npCode (len name) ++ word host d ++ name
  | VVector l => addCodeAndSize vectorCode (len l) ++ flat_map (word host) l
  | VCVector l => addCodeAndSize cvCode (len l) ++ flat_map (fun c => word host (fst c) ++ word host (snd c)) l
  end.

(** ValueConverter.hpp:28-64 getBinaryLength *)
Definition getBinaryLength (v : value) : Z :=
  match v with
  | VDouble _ => 16
  | VInt _ => 16
  | VComplex _ _ => 24
  | VString s => len s + 8
  | VNamed name _ => len name + 16
  | VVector l => len l * 8 + 8
  | VCVector l => len l * 8 * 2 + 8
  end.

(** ValueConverter.hpp:119-123 convert(val, store): the store is resized, then the bytes are written over its
    first ones.  The contents of the resized store are irrelevant when the sizes agree ([C24_size_reserved]). *)
Definition convert (host : bool) (v : value) (store : list Z) : list Z :=
  let data := resize (getBinaryLength v) store in
  convertToBinary host v ++ skipn (length (convertToBinary host v)) data.

(** ValueConverter.cpp:172-176 getDataSize *)
Definition getDataSize (data : list Z) : option Z :=
  match data with
  | _ :: _ :: _ :: _ :: a :: b :: c :: d :: _ => Some (a * 16777216 + b * 65536 + c * 256 + d)
  | _ => None
  end.

(** ValueConverter.cpp:178-192 detectType; [None]: HELICS_UNKNOWN *)
Definition detectCode (c : Z) : option vtype :=
  if c =? intCode then Some TInt
  else if c =? doubleCode then Some TDouble
  else if c =? complexCode then Some TComplex
  else if c =? vectorCode then Some TVector
  else if c =? cvCode then Some TCVector
  else if c =? npCode then Some TNamed
  else if c =? customCode then Some TCustom
  else if c =? stringCode then Some TString
  else None.
(** the data is assumed to have a first byte (ValueConverter.hpp:86) *)
Definition detectType (data : list Z) : option vtype := match data with c :: _ => detectCode c | [] => None end.

(** read [n] bytes at [data + off] *)
Definition at_ (data : list Z) (off n : Z) : option (list Z) :=
  match take n (skipn (Z.to_nat off) data) with Some (b, _) => Some b | None => None end.
Definition obind {A B} (x : option A) (f : A -> option B) : option B := match x with Some a => f a | None => None end.
Notation "'let?' p := x 'in' k" := (obind x (fun p => k)) (at level 200, p pattern, x at level 100, k at level 200).
(** ValueConverter.cpp:197-199 and alike: the bytes are swapped when the lowest bit of the code is set *)
Definition swapped (data : list Z) : option bool := match data with c :: _ => Some (negb (Z.land c 1 =? 0)) | [] => None end.
Definition unword (host swap : bool) (b : list Z) : Z := fromMem host (swapMem swap b).
(** split in groups of eight bytes *)
Fixpoint words (host swap : bool) (n : nat) (b : list Z) : list Z :=
  match n with O => [] | S k => unword host swap (firstn 8 b) :: words host swap k (skipn 8 b) end.
Fixpoint pairs (l : list Z) : list (Z * Z) :=
  match l with a :: b :: r => (a, b) :: pairs r | _ => [] end.

(** ValueConverter.cpp:194-310 convertFromBinary; [None]: a byte outside the data is read *)
Definition convertFromBinary (host : bool) (t : vtype) (data : list Z) : option value :=
  let? sw := swapped data in
  match t with
  | TDouble => let? b := at_ data 8 8 in Some (VDouble (unword host sw b))
  | TInt => let? b := at_ data 8 8 in Some (VInt (signed 8 (unword host sw b)))
  | TComplex => let? a := at_ data 8 8 in let? b := at_ data 16 8 in Some (VComplex (unword host sw a) (unword host sw b))
  | TString => let? size := getDataSize data in let? s := at_ data 8 size in Some (VString s)
  | TNamed => let? b := at_ data 8 8 in let? size := getDataSize data in let? s := at_ data 16 size in Some (VNamed s (unword host sw b))
  | TVector => let? size := getDataSize data in let? b := at_ data 8 (size * 8) in Some (VVector (words host sw (Z.to_nat size) b))
  | TCVector => let? size := getDataSize data in let? b := at_ data 8 (size * 16) in Some (VCVector (pairs (words host sw (Z.to_nat (2 * size)) b)))
  | TCustom => None
  end.
(** ValueConverter.hpp:142-147 interpret *)
Definition interpret := convertFromBinary.
