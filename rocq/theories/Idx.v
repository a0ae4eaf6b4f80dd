(** Idx.v -- the reader of idx files (the MNIST data), examples/example_03.c.

    A file is the list of its bytes.  Simplified: messages to stderr are not modelled; whether an allocation of n bytes succeeds is
    the parameter alloc (an allocation of 0 bytes that succeeds gives a pointer that is not NULL); fread returns fewer bytes only at
    the end of the file; a value that was not read from the file counts as an error when it is used. *)
From Coq Require Import ZArith Bool String Ascii List.
From Verif Require Import Base Ops Logger.
Import ListNotations.
Local Open Scope nat_scope.

(** uint32_t arithmetic *)
Definition u32 (z : Z) : Z := (z mod 4294967296)%Z.
(** unsigned char *)
Definition uchar (c : ascii) : Z := Z.of_nat (nat_of_ascii c).

(** fread of k bytes: the bytes and the rest of the file *)
Definition fread (k : nat) (fp : bytes) : bytes * bytes := (firstn k fp, skipn k fp).
(** element i of an array that was filled with the bytes b *)
Definition byte_at (b : bytes) (i : nat) : res ascii :=
  match nth_error b i with Some c => Ok c | None => Fault Uninit end.
(** uint32_t in the memory of a little endian machine *)
Definition le32 (c0 c1 c2 c3 : ascii) : Z := (uchar c0 + 256 * uchar c1 + 65536 * uchar c2 + 16777216 * uchar c3)%Z.

(** examples/example_03.c:17-32 read_uint_big_endian: the number and the rest of the file *)
Definition read_uint (fp : bytes) : res (Z * bytes) :=
  let (c, fp) := fread 4 fp in
  rbind (byte_at c 0) (fun c0 => rbind (byte_at c 1) (fun c1 => rbind (byte_at c 2) (fun c2 => rbind (byte_at c 3) (fun c3 =>
  Ok (le32 c3 c2 c1 c0, fp))))).                                             (* 24-30: bytes 0 and 3, 1 and 2 are exchanged *)

Definition check (b : bool) : res unit := if b then Ok tt else Fault AssertFailed.
(** lines 53-64 and 111-122: the magic number *)
Definition read_magic (ndim : Z) (fp : bytes) : res bytes :=
  let (m, fp) := fread 4 fp in
  rbind (byte_at m 0) (fun m0 => rbind (check (uchar m0 =? 0)%Z) (fun _ =>
  rbind (byte_at m 1) (fun m1 => rbind (check (uchar m1 =? 0)%Z) (fun _ =>
  rbind (byte_at m 2) (fun m2 => rbind (check (uchar m2 =? 8)%Z) (fun _ =>
  rbind (byte_at m 3) (fun m3 => rbind (check (uchar m3 =? ndim)%Z) (fun _ => Ok fp)))))))).

Section Idx.
  Context {FO : fops}.
  Variable alloc : Z -> bool.

  (** lines 80-85: n numbers from the bytes raw *)
  Fixpoint scale_bytes (n : nat) (raw : bytes) : res (list F) :=
    match n with
    | 0 => Ok []
    | S n => match raw with
             | [] => Fault Uninit
             | b :: raw => rbind (scale_bytes n raw) (fun r => Ok (fdiv (fofZ (uchar b)) (fofZ 255) :: r))
             end
    end.
  (** examples/example_03.c:34-90 read_idx_features; None: NULL.  The array, n_samples and n_features *)
  Definition read_features (file : option bytes) : res (option (list F * Z * Z)) :=
    match file with
    | None => Ok None                                                        (* 37 *)
    | Some fp =>
        rbind (read_magic 3 fp) (fun fp =>
        rbind (read_uint fp) (fun r => let (n_samples, fp) := r in           (* 67 *)
        rbind (read_uint fp) (fun r => let (n_rows, fp) := r in
        rbind (read_uint fp) (fun r => let (n_cols, fp) := r in
        let n_features := u32 (n_rows * n_cols) in                           (* 72 *)
        let n := u32 (n_samples * n_features) in
        if negb (alloc n) && (0 <? n)%Z then Fault BadPointer else           (* 74 *)
        let (raw, _) := fread (Z.to_nat n) fp in                             (* 75 *)
        if negb (alloc (n * 4)) then (if (0 <? n)%Z then Fault BadPointer else Ok None) else   (* 78 *)
        rbind (scale_bytes (Z.to_nat n) raw) (fun X => Ok (Some (X, n_samples, n_features)))))))
    end.

  (** lines 134-136: the samples from i on; raw are their labels *)
  Fixpoint one_hot (k : nat) (i : Z) (n_targets : Z) (raw : bytes) (labels : list F) : res (list F) :=
    match k with
    | 0 => Ok labels
    | S k => match raw with
             | [] => Fault Uninit
             | b :: raw =>
                 let idx := (u32 (i * n_targets) + uchar b)%Z in
                 if (idx <? Z.of_nat (length labels))%Z then one_hot k (i + 1) n_targets raw (set_nth labels (Z.to_nat idx) f1)
                 else Fault OutOfBounds
             end
    end.
  (** examples/example_03.c:92-141 read_idx_labels; None: NULL.  The array and n_samples *)
  Definition read_labels (file : option bytes) (n_targets : Z) : res (option (list F * Z)) :=
    match file with
    | None => Ok None
    | Some fp =>
        rbind (read_magic 1 fp) (fun fp =>
        rbind (read_uint fp) (fun r => let (n_samples, fp) := r in           (* 125 *)
        if negb (alloc n_samples) && (0 <? n_samples)%Z then Fault BadPointer else   (* 127 *)
        let (raw, _) := fread (Z.to_nat n_samples) fp in
        let n := u32 (n_samples * n_targets) in
        if negb (alloc (n * 4)) then (if (0 <? n_samples)%Z then Fault BadPointer else Ok None) else   (* 131 *)
        rbind (one_hot (Z.to_nat n_samples) 0 n_targets raw (repeat f0 (Z.to_nat n))) (fun Y => Ok (Some (Y, n_samples)))))
    end.

  (** examples/example_03.c:143-158: the four files; None: the program ends with a message.  The variables n_train_samples,
      n_test_samples and n_input_features are those of the last call that stores them *)
  Record idata := mk_idata { id_X : list F; id_Y : list F; id_vX : list F; id_vY : list F; id_n : Z; id_nv : Z; id_in : Z }.
  Definition n_output_targets : Z := 10.
  Definition load_data (train_images train_labels test_images test_labels : option bytes) : res (option idata) :=
    rbind (read_features train_images) (fun a =>
    rbind (read_labels train_labels n_output_targets) (fun b =>
    rbind (read_features test_images) (fun c =>
    rbind (read_labels test_labels n_output_targets) (fun d =>
    match a, b, c, d with
    | Some (X, _, _), Some (Y, n), Some (vX, _, n_in), Some (vY, nv) => Ok (Some (mk_idata X Y vX vY n nv n_in))
    | _, _, _, _ => Ok None
    end)))).
  (** lines 206-207: optimizer_run_epoch reads id_n rows of X and Y and id_nv rows of vX and vY *)
  Definition epoch_reads (d : idata) : res unit :=
    if (id_n d * id_in d <=? Z.of_nat (length (id_X d)))%Z && (id_n d * n_output_targets <=? Z.of_nat (length (id_Y d)))%Z
       && (id_nv d * id_in d <=? Z.of_nat (length (id_vX d)))%Z && (id_nv d * n_output_targets <=? Z.of_nat (length (id_vY d)))%Z
    then Ok tt else Fault OutOfBounds.
End Idx.
