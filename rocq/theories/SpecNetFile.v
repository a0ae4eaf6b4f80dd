(** SpecNetFile.v -- what a network is and how it is stored. *)
From Coq Require Import ZArith Bool String Ascii List.
From Verif Require Import Base Npy SpecNpy NpyList SpecList Registry Create SpecCreate.
Import ListNotations.
Local Open Scope nat_scope.

(** a layer: sizes, the bytes of its weights and biases, its function *)
Record ndesc := mk_ndesc { d_in : Z; d_out : Z; d_w : list ascii; d_b : list ascii; d_f : fn }.

(** sizes are at least 1; four bytes for each parameter; the number of weights is an int *)
Definition desc_ok (d : ndesc) : Prop :=
  (1 <= d_in d < 2147483648)%Z /\ (1 <= d_out d < 2147483648)%Z /\ (d_in d * d_out d < 2147483648)%Z
  /\ (Z.of_nat (length (d_w d)) = d_in d * d_out d * 4)%Z /\ (Z.of_nat (length (d_b d)) = d_out d * 4)%Z.
(** the outputs of a layer are the inputs of the next *)
Fixpoint chained (ds : list ndesc) : Prop :=
  match ds with d :: ((e :: _) as r) => d_out d = d_in e /\ chained r | _ => True end.
Definition network (ds : list ndesc) : Prop :=
  ds <> [] /\ Forall desc_ok ds /\ chained ds /\ (Z.of_nat (length ds) < 2147483648)%Z.

(** the network in memory *)
Definition field_is (h : heap) (p : fptr) (s : list ascii) : Prop := exists a, p = FPtr a /\ holds h a (BMem (map Some s)).
Definition layer_has (h : heap) (d : ndesc) (l : clayer) : Prop :=
  cl_in l = d_in d /\ cl_out l = d_out d /\ field_is h (cl_w l) (d_w d) /\ field_is h (cl_b l) (d_b d) /\ cl_func l = Some (d_f d).
Definition net_has (h : heap) (ds : list ndesc) (nn : cnet) : Prop :=
  Forall2 (layer_has h) ds (cn_layers nn) /\ live h (cn_self nn) /\ live h (cn_arr nn) /\ NoDup (net_blocks nn).

(** an array of 32 bit floats *)
Definition float_array (dims : list Z) (data : list ascii) (m : npy) : Prop :=
  np_type m = "f"%char /\ np_elem m = 4%Z /\ np_shape m = dims ++ repeat 0%Z (8 - length dims) /\ np_ndim m = length dims
  /\ np_fortran m = false /\ np_data m = data.
(** the arrays of the parameters: weights and biases of the layers, in order *)
Definition parameter_arrays (ds : list ndesc) (ms : list npy) : Prop :=
  Forall2 (fun x m => float_array (fst x) (snd x) m)
          (flat_map (fun d => [([d_in d; d_out d], d_w d); ([d_out d], d_b d)]) ds) ms.
(** an array of strings: rows of equal length, filled up with NULs *)
Definition names_array (names : list (list ascii)) (m : npy) : Prop :=
  exists e, np_type m = "S"%char /\ np_elem m = Z.of_nat e /\ np_shape m = Z.of_nat (length names) :: repeat 0%Z 7
    /\ np_ndim m = 1 /\ np_fortran m = false
    /\ np_data m = flat_map (fun s => s ++ repeat "000"%char (e - length s)) names
    /\ Forall (fun s => length s <= e /\ ~ In "000"%char s) names.

(** a .npy file with an array of dimensions dims; the data may be followed by more; numpy writes < or | *)
Definition npy_stores (content : list ascii) (type : ascii) (elem : Z) (dims : list Z) (data : list ascii) : Prop :=
  exists minor text more e, content = npy_file minor text (data ++ more) /\ describes text e type elem false dims
    /\ e <> ">"%char /\ length text mod 256 < 128 /\ length text / 256 < 128.
(** the files of the parameters: weights and biases of the layers, in order *)
Definition stores_parameters (ds : list ndesc) (files : list (list ascii)) : Prop :=
  Forall2 (fun x f => npy_stores f "f" 4 (fst x) (snd x)) (flat_map (fun d => [([d_in d; d_out d], d_w d); ([d_out d], d_b d)]) ds) files.
(** the file of the names of the functions: rows of e characters *)
Definition stores_names (names : list (list ascii)) (file : list ascii) : Prop :=
  exists e, 1 <= e /\ npy_stores file "S" (Z.of_nat e) [Z.of_nat (length names)] (flat_map (fun s => s ++ repeat "000"%char (e - length s)) names)
    /\ Forall (fun s => length s <= e /\ ~ In "000"%char s) names /\ (Z.of_nat e * Z.of_nat (length names) < 4611686018427387904)%Z.
