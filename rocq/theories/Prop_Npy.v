(** Prop_Npy.v -- C40 to C44: .npy files. *)
From Coq Require Import ZArith Bool String Ascii List Lia.
From Verif Require Import Base BaseProofs Logger SpecLog LoggerProofs Npy SpecNpy NpyProofs NpyProofs2.
Import ListNotations.
Local Open Scope nat_scope.

(** an array of 2 x 3 floats *)
Definition ex_array : npy :=
  mk_npy (map ascii_of_nat (seq 0 24)) [2; 3; 0; 0; 0; 0; 0; 0]%Z 2 "<" "f" 4 false false.
Lemma ex_storable : storable ex_array.
Proof.
  split; [reflexivity|]. split; [cbn; lia|]. split; [unfold stored_dims; cbn; repeat constructor|].
  split; [reflexivity|]. split; [discriminate|]. split; reflexivity.
Qed.

(** ** C40: the header *)
Lemma get_header_fun m h h' : npy_get_header m = Ok h -> npy_get_header m = Ok h' -> h = h'.
Proof. congruence. Qed.

(** whatever header is produced, it is a version 1.0 file without data: magic, version, length, dictionary, blanks
    and a newline, in a multiple of 64 bytes *)
Theorem npy_header_wf (m : npy) (h : bytes) : npy_get_header m = Ok h ->
  exists e num shape k,
    let text := npy_dict e (np_type m) num (np_fortran m) shape
                  (txt ", }" ++ repeat " "%char k ++ [newline]) in
    h = npy_file "000" text [] /\ Nat.divide 64 (length h) /\ byte_order m e
    /\ ((0 < np_elem m < 18446744073709551616)%Z -> numeral (np_elem m) num)
    /\ (Forall (fun d => (0 <= d < 2147483648)%Z) (stored_dims m) -> np_ndim m <= length (np_shape m) ->
        shape_text (stored_dims m) shape).
Proof.
  intros H. destruct (print_shape (np_ndim m) 0 (np_shape m)) as [shape|f] eqn:E.
  2:{ unfold npy_get_header in H. rewrite E in H. discriminate. }
  assert (L : length (dict_text m shape) < 108).
  { unfold npy_get_header in H. rewrite E in H. cbn [rbind] in H.
    destruct (Nat.ltb_spec (length (dict_text m shape)) 108) as [L|]; [exact L|discriminate]. }
  destruct (get_header_eq m shape E L) as (H1 & H2).
  exists (guess_endianness m), (fmt_zu (np_elem m)), shape, (117 - length (dict_text m shape)). cbv zeta.
  assert (TX : header_text m shape = npy_dict (guess_endianness m) (np_type m) (fmt_zu (np_elem m)) (np_fortran m) shape
                  (txt ", }" ++ repeat " "%char (117 - length (dict_text m shape)) ++ [newline])).
  { unfold header_text, dict_text at 1, npy_dict. rewrite <- !app_assoc. reflexivity. }
  rewrite <- TX.
  assert (HE : h = npy_file "000" (header_text m shape) []).
  { apply (get_header_fun m); [exact H|]. unfold npy_file. rewrite H2, app_nil_r. exact H1. }
  split; [exact HE|]. split. { rewrite HE, npy_file_len, H2. exists 2. reflexivity. }
  split; [apply guess_byte_order|].
  split; [exact (fmt_zu_numeral _)|].
  intros HD HN. rewrite print_shape_ok in E by (try lia; exact HD). cbn [skipn] in E.
  assert (E' : shape_bytes (stored_dims m) = shape) by (apply (f_equal (fun r => match r with Ok s => s | _ => [] end)) in E; exact E).
  rewrite <- E'. apply shape_bytes_text. exact HD.
Qed.
Print Assumptions npy_header_wf.

(** and a storable array (at most 7 positive dimensions) always gets a header *)
Theorem npy_header_total (m : npy) : storable m -> exists h, npy_get_header m = Ok h /\ length h = 128.
Proof.
  intros HS. pose proof (dict_len m HS) as DL. destruct HS as (A & B & C & _).
  destruct (get_header_eq m (shape_bytes (stored_dims m))) as (H1 & H2); [apply print_shape_ok; [lia|]|exact DL|].
  { eapply Forall_impl; [|exact C]. cbn. lia. }
  eexists. split; [exact H1|]. rewrite !app_length, H2. reflexivity.
Qed.
Print Assumptions npy_header_total.

Example npy_header_ex : npy_get_header ex_array
  = Ok (npy_file "000" (txt "{'descr': '<f4', 'fortran_order': False, 'shape': (2,3,), }"
                        ++ repeat " "%char 58 ++ [newline]) []).
Proof. vm_compute. reflexivity. Qed.

(** ** C41: round trip *)
Theorem npy_round_trip (alloc : Z -> bool) (m : npy) : storable m ->
  alloc 104%Z = true -> alloc (Z.of_nat (length (np_data m))) = true ->
  exists file m', npy_save m = Ok file /\ npy_load alloc file = Ok (Some m')
    /\ np_data m' = np_data m
    /\ np_ndim m' = np_ndim m /\ stored_dims m' = stored_dims m
    /\ np_type m' = np_type m /\ np_elem m' = np_elem m /\ np_fortran m' = np_fortran m
    /\ byte_order m (np_endian m')
    /\ np_mapped m' = false /\ storable m'.
Proof.
  intros HS A1 A2. pose proof (storable_positive m HS) as HP. pose proof (product_pos _ HP) as PP.
  pose proof (stored_len m HS) as SL. destruct (save_eq m HS) as (E1 & E2).
  pose proof (header_describes m HS) as HD. destruct HS as (A & B & C & D & E & F & G).
  eexists. exists (mk_npy (np_data m) (stored_dims m ++ repeat 0%Z (8 - length (stored_dims m))) (length (stored_dims m))
                  (guess_endianness m) (np_type m) (np_elem m) (np_fortran m) false).
  split; [exact E1|]. split.
  { unfold npy_load. rewrite (read_body alloc false _ _ _ _ _ _ _ _ HD).
    - unfold sizeof_npy. rewrite A1. cbn [negb]. cbv zeta.
      rewrite count_ok by (try exact HP; unfold size_max1; nia). rewrite Z.mul_1_l.
      rewrite to_size_small by (unfold size_max1; nia). rewrite <- F, A2. cbn [negb]. rewrite Z.leb_refl.
      rewrite Nat2Z.id, firstn_all. reflexivity.
    - nia.
    - lia.
    - eapply Forall_impl; [|exact C]. cbn. lia.
    - rewrite E2. cbn. lia.
    - rewrite E2. cbn. lia. }
  assert (SD : stored_dims (mk_npy (np_data m) (stored_dims m ++ repeat 0%Z (8 - length (stored_dims m))) (length (stored_dims m))
                  (guess_endianness m) (np_type m) (np_elem m) (np_fortran m) false) = stored_dims m).
  { unfold stored_dims at 1. cbn [np_ndim np_shape]. rewrite firstn_app, firstn_all, Nat.sub_diag. cbn [firstn]. apply app_nil_r. }
  cbn [np_data np_ndim np_type np_elem np_fortran np_mapped np_endian].
  do 6 (split; [first [assumption|reflexivity]|]). split; [apply guess_byte_order|]. split; [reflexivity|].
  repeat split; try assumption; try reflexivity.
  - cbn [np_shape]. rewrite app_length, repeat_length. lia.
  - cbn [np_ndim]. lia.
  - rewrite SD. exact C.
  - rewrite SD. exact F.
  - rewrite SD. exact G.
Qed.
Print Assumptions npy_round_trip.

(** the same through npy_array_mmap *)
Theorem npy_mmap_round_trip (alloc : Z -> bool) (m : npy) : storable m -> alloc 104%Z = true ->
  exists file m', npy_save m = Ok file /\ npy_mmap alloc file = Ok (Some m')
    /\ np_data m' = np_data m
    /\ np_ndim m' = np_ndim m /\ stored_dims m' = stored_dims m
    /\ np_type m' = np_type m /\ np_elem m' = np_elem m /\ np_fortran m' = np_fortran m /\ byte_order m (np_endian m') /\ np_mapped m' = true.
Proof.
  intros HS A1. pose proof (storable_positive m HS) as HP. pose proof (product_pos _ HP) as PP.
  pose proof (stored_len m HS) as SL. destruct (save_eq m HS) as (E1 & E2).
  pose proof (header_describes m HS) as HD. destruct HS as (A & B & C & D & E & F & G).
  eexists. exists (mk_npy (np_data m) (stored_dims m ++ repeat 0%Z (8 - length (stored_dims m))) (length (stored_dims m))
                  (guess_endianness m) (np_type m) (np_elem m) (np_fortran m) true).
  split; [exact E1|]. split.
  { unfold npy_mmap. destruct (npy_file _ _ _) eqn:EF; [discriminate EF|]. rewrite <- EF. rewrite (read_body alloc true _ _ _ _ _ _ _ _ HD).
    - unfold sizeof_npy. rewrite A1. reflexivity.
    - nia.
    - lia.
    - eapply Forall_impl; [|exact C]. cbn. lia.
    - rewrite E2. cbn. lia.
    - rewrite E2. cbn. lia. }
  cbn [np_data np_ndim np_type np_elem np_fortran np_mapped np_endian].
  split; [reflexivity|]. split; [assumption|]. split; [|do 3 (split; [reflexivity|]); split; [apply guess_byte_order|reflexivity]].
  unfold stored_dims at 1. cbn [np_ndim np_shape]. rewrite firstn_app, firstn_all, Nat.sub_diag. cbn [firstn]. apply app_nil_r.
Qed.
Print Assumptions npy_mmap_round_trip.

Example npy_round_trip_ex : storable ex_array
  /\ rbind (npy_save ex_array) (npy_load (fun _ => true)) = Ok (Some ex_array).
Proof. split; [exact ex_storable|vm_compute; reflexivity]. Qed.

(** ** C42: header lengths *)
(** files with any header text whose length has two bytes below 128 are read *)
Theorem npy_header_lengths_partial (alloc : Z -> bool) minor text data more e t es fo dims :
  describes text e t es fo dims -> (0 < es)%Z -> length dims <= 7 -> positive dims ->
  (Z.of_nat (length data) = product dims * es)%Z -> (product dims * es < 9223372036854775808)%Z ->
  length text mod 256 < 128 -> length text / 256 < 128 ->
  alloc 104%Z = true -> alloc (Z.of_nat (length data)) = true ->
  exists m, npy_load alloc (npy_file minor text (data ++ more)) = Ok (Some m)
    /\ np_data m = data /\ stored_dims m = dims /\ np_ndim m = length dims /\ np_endian m = e /\ np_type m = t
    /\ np_elem m = es /\ np_fortran m = fo.
Proof.
  intros HD He HN HP F G L1 L2 A1 A2. pose proof (product_pos _ HP) as PP.
  exists (mk_npy data (dims ++ repeat 0%Z (8 - length dims)) (length dims) e t es fo false).
  split.
  { unfold npy_load. rewrite (read_body alloc false _ _ _ _ _ _ _ _ HD) by (first [assumption|lia|nia|apply product_bound; [exact HP|nia]]).
    unfold sizeof_npy. rewrite A1. cbn [negb]. cbv zeta.
    rewrite count_ok by (try exact HP; unfold size_max1; nia). rewrite Z.mul_1_l.
    rewrite to_size_small by (unfold size_max1; nia). rewrite <- F, A2. cbn [negb].
    destruct (Z.leb_spec (Z.of_nat (length data)) (Z.of_nat (length (data ++ more)))) as [_|Q]; [|rewrite app_length in Q; lia].
    rewrite Nat2Z.id, firstn_app, firstn_all, Nat.sub_diag. cbn [firstn]. rewrite app_nil_r. reflexivity. }
  cbn [np_data np_ndim np_type np_elem np_fortran np_mapped np_endian]. repeat split.
  unfold stored_dims. cbn [np_ndim np_shape]. rewrite firstn_app, firstn_all, Nat.sub_diag. cbn [firstn]. apply app_nil_r.
Qed.
Print Assumptions npy_header_lengths_partial.

Definition ex_text (k : nat) : bytes := txt "{'descr': '<f4', 'fortran_order': False, 'shape': (2, 3), }" ++ repeat " "%char k ++ [newline].
Lemma ex_describes k : describes (ex_text k) "<" "f" 4 false [2; 3]%Z.
Proof.
  exists (txt "4"), (txt "2, 3"), (txt ", }" ++ repeat " "%char k ++ [newline]).
  split; [reflexivity|]. split; [left; repeat split; [lia|discriminate]|].
  split.
  { apply (shape_dim 2 [3%Z] [] (txt "2") (txt ", 3")).
    - constructor.
    - lia.
    - left. repeat split; [lia|discriminate].
    - cbn. unfold a_digit. cbn. lia.
    - apply (shape_dim 3 [] (txt ", ") (txt "3") []).
      + constructor; [|constructor; [|constructor]]; repeat split; try discriminate; unfold a_digit; cbn; lia.
      + lia.
      + left. repeat split; [lia|discriminate].
      + exact I.
      + constructor. constructor. }
  split; [left; reflexivity|]. split; [discriminate|].
  apply Forall_app. split; [repeat constructor; discriminate|]. apply Forall_app.
  split; [|repeat constructor; discriminate]. apply Forall_forall. intros c Hc. apply repeat_spec in Hc. subst c. discriminate.
Qed.
(** the hypotheses can be met, with a header of 310 bytes: the file has three trailing bytes *)
Example npy_header_lengths_ex :
  length (ex_text 250) = 310 /\ length (ex_text 250) mod 256 < 128
  /\ npy_load (fun _ => true) (npy_file "000" (ex_text 250) (map ascii_of_nat (seq 0 24) ++ txt "xyz")) = Ok (Some ex_array).
Proof. split; [vm_compute; reflexivity|]. split; [vm_compute; lia|]. vm_compute. reflexivity. Qed.

(** REFUTED: numpy pads to a multiple of 64, and a file whose header takes 192 bytes is not loaded *)
Theorem npy_header_lengths_refuted : exists text data,
  describes text "<" "f" 4 false [2; 3]%Z /\ length data = 24 /\ Nat.divide 64 (length (npy_file "000" text []))
  /\ npy_load (fun _ => true) (npy_file "000" text data) = Ok None.
Proof.
  exists (ex_text 122), (map ascii_of_nat (seq 0 24)). split; [apply ex_describes|]. split; [reflexivity|].
  split; [exists 3; vm_compute; reflexivity|]. vm_compute. reflexivity.
Qed.
Print Assumptions npy_header_lengths_refuted.

(** how every other length fails: a low byte of 128 or more makes the reader ask for at least 65408 header bytes *)
Theorem npy_header_low_byte (alloc : Z -> bool) minor text data :
  128 <= length text mod 256 -> length text / 256 < 128 -> (Z.of_nat (length text + length data) < 65408)%Z ->
  npy_load alloc (npy_file minor text data) = Ok None.
Proof.
  intros H1 H2 HL. unfold npy_load, npy_file. rewrite le16_split, read_step.
  assert (HH : exists hl, header_length (ascii_of_nat (length text mod 256)) (ascii_of_nat (length text / 256)) = Ok hl /\ (65408 <= hl)%Z).
  { pose proof (Nat.mod_upper_bound (length text) 256 ltac:(lia)) as MB.
    unfold header_length, schar. rewrite !nat_ascii_embedding by lia. cbv zeta.
    destruct (Z.ltb_spec (Z.of_nat (length text / 256)) 128) as [_|]; [|lia].
    destruct (Z.ltb_spec (Z.of_nat (length text mod 256)) 128) as [|_]; [lia|].
    destruct (Z.ltb_spec (Z.of_nat (length text / 256)) 0) as [|_]; [lia|].
    eexists. split; [reflexivity|].
    set (a := length text mod 256) in *. set (b := length text / 256) in *. clearbody a b.
    assert (MA : ((Z.of_nat a - 256) mod 65536 = Z.of_nat a + 65280)%Z).
    { symmetry. apply Z.mod_unique with (q := (-1)%Z); [left; lia|lia]. }
    rewrite MA.
    assert (LA : (Z.lor (Z.of_nat a + 65280) (Z.of_nat b * 256) = Z.of_nat a + 65280)%Z).
    { replace (Z.of_nat a + 65280)%Z with (Z.of_nat a + 255 * 256)%Z by lia. rewrite <- lor_bytes by lia.
      rewrite <- Z.lor_assoc. f_equal. change 256%Z with (2 ^ 8)%Z. rewrite <- !Z.shiftl_mul_pow2 by lia. rewrite <- Z.shiftl_lor.
      f_equal. assert (B : (0 <= Z.of_nat b < 2 ^ 8)%Z) by (change (2 ^ 8)%Z with 256%Z; lia).
      apply Z.bits_inj'. intros n Hn. rewrite Z.lor_spec. change 255%Z with (Z.ones 8).
      destruct (Z.ltb_spec n 8).
      - rewrite Z.ones_spec_low by lia. reflexivity.
      - rewrite Z.ones_spec_high by lia. cbn [orb]. destruct (Z.eq_dec (Z.of_nat b) 0) as [-> |NZ]; [apply Z.bits_0|].
        apply Z.bits_above_log2; [lia|]. assert (Z.log2 (Z.of_nat b) < 8)%Z by (apply Z.log2_lt_pow2; lia). lia. }
    rewrite LA. rewrite Z.mod_small by lia. lia. }
  destruct HH as (hl & -> & HB). cbn [rbind].
  assert (LT : length (firstn (Z.to_nat hl) (text ++ data)) < Z.to_nat hl).
  { rewrite firstn_length, app_length. lia. }
  apply Nat.ltb_lt in LT. rewrite LT. reflexivity.
Qed.
Print Assumptions npy_header_low_byte.

(** and a high byte of 128 or more shifts a negative number, which C does not define *)
Theorem npy_header_high_byte (alloc : Z -> bool) minor text data :
  128 <= length text / 256 < 256 -> npy_load alloc (npy_file minor text data) = Fault IntOverflow.
Proof.
  intros H. unfold npy_load, npy_file. rewrite le16_split, read_step.
  unfold header_length, schar. rewrite (nat_ascii_embedding (length text / 256)) by lia. cbv zeta.
  destruct (Z.ltb_spec (Z.of_nat (length text / 256)) 128) as [|_]; [lia|].
  destruct (Z.ltb_spec (Z.of_nat (length text / 256) - 256) 0) as [_|]; [reflexivity|lia].
Qed.
Print Assumptions npy_header_high_byte.
Example npy_header_high_byte_ex : exists text, describes text "<" "f" 4 false [2; 3]%Z /\ 128 <= length text / 256 < 256.
Proof.
  exists (ex_text (128 * 256)). split; [apply ex_describes|].
  assert (L : length (ex_text (128 * 256)) = 60 + 128 * 256).
  { unfold ex_text. rewrite !app_length, repeat_length. change (length (txt _)) with 59. change (length [newline]) with 1. lia. }
  rewrite L. rewrite Nat.div_add by lia. change (60 / 256) with 0. lia.
Qed.

(** ** C43: empty and 8-dimensional arrays *)
(** REFUTED: saving an array without elements reads behind its data, and an array of 8 dimensions is saved from
    beyond its shape *)
Definition ex_empty : npy := mk_npy [] [0; 3; 0; 0; 0; 0; 0; 0]%Z 2 "<" "f" 4 false false.
Definition ex_eight : npy := mk_npy (txt "abcd") [1; 1; 1; 1; 1; 1; 1; 1]%Z 8 "<" "f" 4 false false.
Theorem npy_empty_refuted : exists m,
  length (np_shape m) = 8 /\ np_ndim m = 2 /\ Z.of_nat (length (np_data m)) = (product (stored_dims m) * np_elem m)%Z
  /\ npy_save m = Fault OutOfBounds.
Proof. exists ex_empty. repeat split; vm_compute; reflexivity. Qed.
Print Assumptions npy_empty_refuted.
Theorem npy_eight_refuted : exists m,
  length (np_shape m) = 8 /\ np_ndim m = 8 /\ Z.of_nat (length (np_data m)) = (product (stored_dims m) * np_elem m)%Z
  /\ npy_save m = Fault OutOfBounds.
Proof. exists ex_eight. repeat split; vm_compute; reflexivity. Qed.
Print Assumptions npy_eight_refuted.

(** what the reader does with such files: a file with a zero dimension is refused, one of 8 or more stops the program *)
Theorem npy_zero_dimension_load (alloc : Z -> bool) minor text e t es fo dims1 dims2 :
  describes text e t es fo (dims1 ++ 0%Z :: dims2) -> (0 < es)%Z -> length (dims1 ++ 0%Z :: dims2) <= 7 ->
  positive dims1 -> (product dims1 * es < 9223372036854775808)%Z ->
  Forall (fun d => (d < 9223372036854775808)%Z) dims2 ->
  length text mod 256 < 128 -> length text / 256 < 128 ->
  npy_load alloc (npy_file minor text []) = Ok None.
Proof.
  intros HD He HN HP HB H2 L1 L2. pose proof (product_pos _ HP) as PP. unfold npy_load.
  rewrite (read_body alloc false _ _ _ _ _ _ _ _ HD); try assumption; try lia; try nia.
  2:{ apply Forall_app. split; [apply product_bound; [exact HP|nia]|]. constructor; [lia|exact H2]. }
  destruct (negb (alloc sizeof_npy)); [reflexivity|]. cbv zeta.
  assert (CE : forall r n, (0 < n)%Z -> (n * product dims1 < size_max1)%Z ->
     count_elements (dims1 ++ 0%Z :: r) n = (n * product dims1)%Z).
  { clear - HP. induction HP as [|d l Hd HP' IH]; intros r n Hn HB.
    - cbn. lia.
    - cbn [app count_elements]. destruct (Z.ltb_spec 0 d); [|lia]. rewrite product_cons in *. pose proof (product_pos l HP').
      rewrite to_size_small by nia. rewrite IH; [ring|nia|nia]. }
  rewrite <- app_assoc. cbn [app]. rewrite CE by (unfold size_max1; nia). rewrite Z.mul_1_l, to_size_small by (unfold size_max1; nia).
  destruct (negb (alloc (product dims1 * es)%Z)); [reflexivity|].
  destruct (Z.leb_spec (product dims1 * es) (Z.of_nat (@length ascii []))) as [Q|_]; [cbn in Q; nia|reflexivity].
Qed.
Print Assumptions npy_zero_dimension_load.

Theorem npy_many_dimensions_load (alloc : Z -> bool) minor text data e t es fo dims :
  describes text e t es fo dims -> (0 < es < 9223372036854775808)%Z -> 8 <= length dims ->
  length text mod 256 < 128 -> length text / 256 < 128 -> alloc 104%Z = true ->
  npy_load alloc (npy_file minor text data) = Fault AssertFailed.
Proof.
  intros HD He HN L1 L2 A1. unfold npy_load, npy_file. rewrite le16_split, read_step.
  rewrite header_length_ok by assumption. cbn [rbind]. rewrite Nat2Z.id.
  rewrite firstn_app, firstn_all, Nat.sub_diag. cbn [firstn]. rewrite app_nil_r, Nat.ltb_irrefl.
  unfold sizeof_npy. rewrite A1. cbn [negb]. rewrite (parse_many _ _ _ _ _ _ HD He HN). reflexivity.
Qed.
Print Assumptions npy_many_dimensions_load.

Example npy_zero_dimension_ex : describes (header_text ex_empty (txt "0,3,")) "<" "f" 4 false ([] ++ 0 :: [3])%Z
  /\ npy_load (fun _ => true) (npy_file "000" (header_text ex_empty (txt "0,3,")) []) = Ok None.
Proof.
  split; [|vm_compute; reflexivity].
  exists (txt "4"), (txt "0,3,"), (txt ", }" ++ repeat " "%char 58 ++ [newline]).
  split; [vm_compute; reflexivity|]. split; [left; repeat split; [lia|discriminate]|].
  split; [exact (shape_bytes_text [0; 3]%Z ltac:(repeat constructor; vm_compute; congruence))|].
  split; [left; reflexivity|]. split; [discriminate|]. repeat (constructor; try discriminate).
Qed.
Example npy_many_dimensions_ex : describes (header_text ex_eight (shape_bytes (stored_dims ex_eight))) "<" "f" 4 false (repeat 1%Z 8).
Proof.
  exists (txt "4"), (shape_bytes (repeat 1%Z 8)), (txt ", }" ++ repeat " "%char 46 ++ [newline]).
  split; [vm_compute; reflexivity|]. split; [left; repeat split; [lia|discriminate]|].
  split; [apply shape_bytes_text; repeat constructor; vm_compute; congruence|].
  split; [left; reflexivity|]. split; [discriminate|]. repeat (constructor; try discriminate).
Qed.

(** ** C44: files cut short *)
(** npy_array_load refuses every proper prefix of a saved file *)
Theorem npy_truncated (alloc : Z -> bool) (m : npy) (file : bytes) (k : nat) :
  storable m -> npy_save m = Ok file -> k < length file -> npy_load alloc (firstn k file) = Ok None.
Proof.
  intros HS HE HK. pose proof (storable_positive m HS) as HP. pose proof (stored_len m HS) as SL.
  pose proof (header_describes m HS) as HD. destruct (save_eq m HS) as (E1 & E2).
  assert (EF : file = npy_file "000" (header_text m (shape_bytes (stored_dims m))) (np_data m)) by congruence.
  rewrite EF in *. destruct HS as (A & B & C & D & E & F & G).
  apply (load_short alloc _ _ _ _ _ _ _ _ k HD); try assumption; try lia.
  - rewrite E2. cbn. lia.
  - rewrite E2. cbn. lia.
Qed.
Print Assumptions npy_truncated.
Example npy_truncated_ex : exists file, npy_save ex_array = Ok file /\ length file = 152
  /\ map (fun k => npy_load (fun _ => true) (firstn k file)) [0; 9; 100; 127; 128; 151] = repeat (Ok None) 6.
Proof. eexists. split; [vm_compute; reflexivity|]. split; vm_compute; reflexivity. Qed.

(** REFUTED for npy_array_mmap: a prefix that ends in the header makes it read uninitialised memory, one that ends
    in the data is accepted with fewer bytes of data than its shape says *)
Theorem npy_mmap_truncated (alloc : Z -> bool) (m : npy) (file : bytes) (k : nat) :
  storable m -> npy_save m = Ok file -> k < length file -> alloc 104%Z = true ->
  (k = 0 -> npy_mmap alloc (firstn k file) = Ok None)
  /\ (0 < k < 128 -> npy_mmap alloc (firstn k file) = Fault Uninit)
  /\ (128 <= k -> exists m', npy_mmap alloc (firstn k file) = Ok (Some m')
       /\ np_data m' = firstn (k - 128) (np_data m)
       /\ npy_datasize m' = Ok (Z.of_nat (length (np_data m))) /\ length (np_data m') < length (np_data m)).
Proof.
  intros HS HE HK A1. pose proof (storable_positive m HS) as HP. pose proof (stored_len m HS) as SL.
  pose proof (header_describes m HS) as HD. destruct (save_eq m HS) as (E1 & E2).
  assert (EF : file = npy_file "000" (header_text m (shape_bytes (stored_dims m))) (np_data m)) by congruence.
  subst file. pose proof (npy_file_len "000" (header_text m (shape_bytes (stored_dims m))) (np_data m)) as FL. rewrite E2 in FL.
  set (tx := header_text m (shape_bytes (stored_dims m))) in *.
  destruct HS as (A & B & C & D & E & F & G). pose proof (product_pos _ HP) as PP.
  assert (NM : forall k', 0 < k' -> npy_mmap alloc (firstn k' (npy_file "000" tx (np_data m))) = read_matrix alloc true (firstn k' (npy_file "000" tx (np_data m)))).
  { intros k' H. destruct k' as [|k']; [lia|]. reflexivity. }
  split; [intros -> ; reflexivity|]. split.
  - intros H. rewrite NM by lia. destruct (Nat.lt_ge_cases k 10) as [L|L].
    + assert (LM : le16 (length tx) = ["118"%char; "000"%char]) by (rewrite E2; reflexivity).
      unfold npy_file. rewrite LM.
      do 10 (destruct k as [|k]; [first [lia|reflexivity]|]). lia.
    + assert (EQ : firstn k (npy_file "000" tx (np_data m))
         = npy_magic ++ ["001"%char; "000"%char] ++ [ascii_of_nat (length tx mod 256); ascii_of_nat (length tx / 256)] ++ firstn (k - 10) (tx ++ np_data m)).
      { replace k with (10 + (k - 10)) at 1 by lia. reflexivity. }
      rewrite EQ, read_step, header_length_ok by (rewrite E2; cbn; lia). cbn [rbind]. rewrite Nat2Z.id.
      assert (LP : length (firstn (length tx) (firstn (k - 10) (tx ++ np_data m))) < length tx).
      { rewrite !firstn_length. lia. }
      apply Nat.ltb_lt in LP. rewrite LP. reflexivity.
  - intros H. rewrite NM by lia.
    assert (EQ : firstn k (npy_file "000" tx (np_data m)) = npy_file "000" tx (firstn (k - 128) (np_data m))).
    { replace k with (10 + (k - 10)) at 1 by lia.
      change (firstn (10 + (k - 10)) (npy_file "000" tx (np_data m))) with
        (npy_magic ++ ["001"%char; "000"%char] ++ le16 (length tx) ++ firstn (k - 10) (tx ++ np_data m)).
      unfold npy_file. f_equal. f_equal. f_equal. rewrite firstn_app. rewrite firstn_all2 by lia. f_equal. f_equal. lia. }
    rewrite EQ. rewrite (read_body alloc true _ _ _ _ _ _ _ _ HD).
    + unfold sizeof_npy. rewrite A1. cbn [negb]. cbv zeta. eexists. split; [reflexivity|]. cbn [np_data]. split; [reflexivity|].
      split; [|rewrite firstn_length; lia].
      assert (SD : forall dd x y z w v, stored_dims (mk_npy dd (stored_dims m ++ repeat 0%Z (8 - length (stored_dims m))) (length (stored_dims m)) x y z w v) = stored_dims m).
      { intros. unfold stored_dims at 1. cbn [np_ndim np_shape]. rewrite firstn_app, firstn_all, Nat.sub_diag. cbn [firstn]. apply app_nil_r. }
      rewrite datasize_ok.
      * fold (stored_dims (mk_npy (firstn (k - 128) (np_data m)) (stored_dims m ++ repeat 0%Z (8 - length (stored_dims m))) (length (stored_dims m))
           (guess_endianness m) (np_type m) (np_elem m) (np_fortran m) true)). rewrite SD. cbn [np_elem]. rewrite F. reflexivity.
      * cbn [np_shape]. rewrite app_length, repeat_length. lia.
      * cbn [np_ndim]. lia.
      * fold (stored_dims (mk_npy (firstn (k - 128) (np_data m)) (stored_dims m ++ repeat 0%Z (8 - length (stored_dims m))) (length (stored_dims m))
           (guess_endianness m) (np_type m) (np_elem m) (np_fortran m) true)). rewrite SD. exact HP.
      * exact D.
      * fold (stored_dims (mk_npy (firstn (k - 128) (np_data m)) (stored_dims m ++ repeat 0%Z (8 - length (stored_dims m))) (length (stored_dims m))
           (guess_endianness m) (np_type m) (np_elem m) (np_fortran m) true)). rewrite SD. cbn [np_elem]. unfold size_max1. lia.
    + nia.
    + lia.
    + eapply Forall_impl; [|exact C]. cbn. lia.
    + rewrite E2. cbn. lia.
    + rewrite E2. cbn. lia.
Qed.
Print Assumptions npy_mmap_truncated.
Theorem npy_mmap_truncated_refuted : exists m file,
  storable m /\ npy_save m = Ok file
  /\ npy_mmap (fun _ => true) (firstn 100 file) = Fault Uninit
  /\ npy_mmap (fun _ => true) (firstn 130 file) <> Ok None.
Proof.
  exists ex_array. eexists. split; [exact ex_storable|]. split; [vm_compute; reflexivity|]. split; [vm_compute; reflexivity|].
  vm_compute. discriminate.
Qed.
Print Assumptions npy_mmap_truncated_refuted.
