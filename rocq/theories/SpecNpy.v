(** SpecNpy.v -- the .npy format, version 1.0, as numpy describes it (the struct of Npy.v is all that is used of the model). *)
From Coq Require Import ZArith Bool String Ascii List.
From Verif Require Import SpecLog Npy.
Import ListNotations.
Local Open Scope nat_scope.

(** the magic string \x93NUMPY *)
Definition npy_magic : list ascii := "147"%char :: txt "NUMPY".

(** a number below 65536 in two bytes, the low one first *)
Definition le16 (n : nat) : list ascii := [ascii_of_nat (n mod 256); ascii_of_nat (n / 256)].

(** a file: magic, version 1.minor, the length of the header text, the header text, the data *)
Definition npy_file (minor : ascii) (text data : list ascii) : list ascii :=
  npy_magic ++ ["001"%char; minor] ++ le16 (length text) ++ text ++ data.

Definition a_digit (c : ascii) : Prop := 48 <= nat_of_ascii c <= 57.
Definition separator (c : ascii) : Prop := ~ a_digit c /\ c <> ")"%char /\ c <> "000"%char.
Definition no_digit_first (s : list ascii) : Prop := match s with [] => True | c :: _ => ~ a_digit c end.

(** the text between the parentheses of a shape: the dimensions with separators (commas, blanks) *)
Inductive shape_text : list Z -> list ascii -> Prop :=
| shape_end s : Forall separator s -> shape_text [] s
| shape_dim d dims sep num s : Forall separator sep -> (0 <= d)%Z -> numeral d num -> no_digit_first s ->
    shape_text dims s -> shape_text (d :: dims) (sep ++ num ++ s).

(** the dictionary as numpy prints it; whatever follows the shape is free *)
Definition npy_dict (endian type : ascii) (elem : list ascii) (fortran : bool) (shape tail : list ascii) : list ascii :=
  txt "{'descr': '" ++ [endian; type] ++ elem ++ txt "', 'fortran_order': "
  ++ txt (if fortran then "True" else "False") ++ txt ", 'shape': (" ++ shape ++ txt ")" ++ tail.

Definition product (l : list Z) : Z := fold_right Z.mul 1%Z l.

(** the dictionary describes an array of dimensions dims with elements of elem bytes *)
Definition describes (text : list ascii) (endian type : ascii) (elem : Z) (fortran : bool) (dims : list Z) : Prop :=
  exists num shape tail, text = npy_dict endian type num fortran shape tail
    /\ numeral elem num /\ shape_text dims shape
    /\ In endian ["<"; ">"; "|"]%char /\ type <> "000"%char /\ Forall (fun c => c <> "000"%char) tail.

(** the byte order that is written: the one of the struct if it is one, otherwise the one of the machine, which does
    not matter for single bytes and strings *)
Definition byte_order (m : npy) (e : ascii) : Prop :=
  (In (np_endian m) ["<"; ">"; "|"]%char -> e = np_endian m)
  /\ (~ In (np_endian m) ["<"; ">"; "|"]%char ->
      (np_elem m = 1%Z \/ np_type m = "S"%char -> e = "|"%char) /\ (np_elem m <> 1%Z -> np_type m <> "S"%char -> e = "<"%char)).

Definition positive (l : list Z) : Prop := Forall (fun d => (0 < d)%Z) l.

(** an array that can be stored: at most 7 dimensions, all positive; the whole of the data is there *)
Definition stored_dims (m : npy) : list Z := firstn (np_ndim m) (np_shape m).
Definition storable (m : npy) : Prop :=
  length (np_shape m) = 8 /\ np_ndim m <= 7
  /\ Forall (fun d => (0 < d < 2147483648)%Z) (stored_dims m)
  /\ (0 < np_elem m)%Z /\ np_type m <> "000"%char
  /\ (Z.of_nat (length (np_data m)) = product (stored_dims m) * np_elem m)%Z
  /\ (product (stored_dims m) * np_elem m < 9223372036854775808)%Z.

