(** NpyProofs2.v -- reading and writing whole .npy files. *)
From Coq Require Import ZArith Bool String Ascii List Lia.
From Verif Require Import Base BaseProofs Logger SpecLog LoggerProofs Npy SpecNpy NpyProofs.
Import ListNotations.
Local Open Scope nat_scope.

(** ** the length of the header *)
Lemma lor_bytes a b : (0 <= a < 256)%Z -> Z.lor a (b * 256) = (a + b * 256)%Z.
Proof.
  intros H. assert (L : Z.land a (b * 256) = 0%Z).
  { apply Z.bits_inj'. intros n Hn. rewrite Z.land_spec, Z.bits_0. change 256%Z with (2 ^ 8)%Z.
    destruct (Z.ltb_spec n 8).
    - rewrite Z.mul_pow2_bits_low by exact H0. apply andb_false_r.
    - replace (Z.testbit a n) with false; [reflexivity|]. symmetry. destruct (Z.eq_dec a 0) as [-> |NZ]; [apply Z.bits_0|].
      apply Z.bits_above_log2; [lia|]. assert (Z.log2 a < 8)%Z by (apply Z.log2_lt_pow2; lia). lia. }
  rewrite Z.add_nocarry_lxor by exact L. symmetry. apply Z.lxor_lor. exact L.
Qed.

Lemma header_length_ok n : n mod 256 < 128 -> n / 256 < 128 ->
  header_length (ascii_of_nat (n mod 256)) (ascii_of_nat (n / 256)) = Ok (Z.of_nat n).
Proof.
  intros H1 H2. unfold header_length, schar. rewrite !nat_ascii_embedding by lia. cbv zeta.
  destruct (Z.ltb_spec (Z.of_nat (n / 256)) 128) as [_|]; [|lia].
  destruct (Z.ltb_spec (Z.of_nat (n mod 256)) 128) as [_|]; [|lia].
  destruct (Z.ltb_spec (Z.of_nat (n / 256)) 0) as [|_]; [lia|].
  f_equal. pose proof (Nat.div_mod n 256 ltac:(lia)) as DM.
  rewrite (Z.mod_small (Z.of_nat (n mod 256))) by lia. rewrite lor_bytes by lia.
  rewrite Z.mod_small by lia. lia.
Qed.

(** ** sizes *)
Lemma product_pos l : positive l -> (1 <= product l)%Z.
Proof. induction 1 as [|d l Hd H IH]; unfold product in *; cbn [fold_right]; nia. Qed.
Lemma product_cons d l : product (d :: l) = (d * product l)%Z.
Proof. reflexivity. Qed.

Lemma count_ok k : forall dims n, positive dims -> (0 < n)%Z -> (n * product dims < size_max1)%Z ->
  count_elements (dims ++ repeat 0%Z k) n = (n * product dims)%Z.
Proof.
  induction dims as [|d dims IH]; intros n HP Hn HB.
  - cbn [app]. unfold product. cbn [fold_right]. rewrite Z.mul_1_r. destruct k; reflexivity.
  - cbn [app count_elements]. inversion HP as [|? ? Hd HP']; subst. destruct (Z.ltb_spec 0 d); [|lia].
    rewrite product_cons in *. pose proof (product_pos dims HP').
    rewrite to_size_small by nia. rewrite IH; [lia|exact HP'|nia|lia].
Qed.

Lemma datasize_ok m : length (np_shape m) = 8 -> np_ndim m <= 7 ->
  positive (firstn (np_ndim m) (np_shape m)) -> (0 < np_elem m)%Z ->
  (product (firstn (np_ndim m) (np_shape m)) * np_elem m < size_max1)%Z ->
  npy_datasize m = Ok (product (firstn (np_ndim m) (np_shape m)) * np_elem m)%Z.
Proof.
  intros HL HN HP He HB.
  assert (G : forall k idx n fuel, np_ndim m = idx + k -> k < fuel -> (0 < n)%Z ->
     (n * product (firstn k (skipn idx (np_shape m))) < size_max1)%Z ->
     positive (firstn k (skipn idx (np_shape m))) ->
     datasize_from fuel m idx n = Ok (n * product (firstn k (skipn idx (np_shape m))))%Z).
  { induction k as [|k IH]; intros idx n fuel E HF Hn HB' HP'; (destruct fuel as [|f]; [lia|]); cbn [datasize_from].
    - destruct (nth_error (np_shape m) idx) as [d|] eqn:En; [|apply nth_error_None in En; lia].
      destruct (Nat.ltb_spec idx (np_ndim m)); [lia|]. rewrite andb_false_r. cbn [firstn]. unfold product. cbn [fold_right]. rewrite Z.mul_1_r. reflexivity.
    - destruct (nth_error (np_shape m) idx) as [d|] eqn:En; [|apply nth_error_None in En; lia].
      assert (SK : skipn idx (np_shape m) = d :: skipn (S idx) (np_shape m)).
      { clear - En. revert idx En. induction (np_shape m) as [|x l IH]; intros idx En; [destruct idx; discriminate|].
        destruct idx; [cbn in En; inversion En; reflexivity|]. cbn in En. cbn [skipn]. apply IH in En. exact En. }
      rewrite SK in *. cbn [firstn] in *. pose proof (Forall_inv HP') as Hd. pose proof (Forall_inv_tail HP') as HP''. cbn beta in Hd.
      rewrite product_cons in *. pose proof (product_pos _ HP'') as PP.
      assert (ND : (0 < n * d <= n * (d * product (firstn k (skipn (S idx) (np_shape m)))))%Z).
      { split; [nia|]. rewrite Z.mul_assoc. rewrite <- (Z.mul_1_r (n * d)) at 1. apply Z.mul_le_mono_nonneg_l; nia. }
      destruct (Z.ltb_spec 0 d); [|lia]. destruct (Nat.ltb_spec idx (np_ndim m)); [|lia]. cbn [andb].
      rewrite to_size_small by (clear - ND HB'; lia). rewrite IH; [f_equal; ring|lia|lia|exact (proj1 ND)| |exact HP''].
      rewrite <- Z.mul_assoc. exact HB'. }
  unfold npy_datasize. rewrite (G (np_ndim m) 0 1%Z) by (try lia; try exact HP; cbn [skipn]; pose proof (product_pos _ HP); nia).
  cbn [rbind skipn]. rewrite Z.mul_1_l. rewrite to_size_small; [reflexivity|]. pose proof (product_pos _ HP). nia.
Qed.

(** ** reading *)
Section Read.
  Variable alloc : Z -> bool.

  Lemma read_step mapped minor lo hi body :
    read_matrix alloc mapped (npy_magic ++ ["001"%char; minor] ++ [lo; hi] ++ body) =
    rbind (header_length lo hi) (fun hl =>
    if length (firstn (Z.to_nat hl) body) <? Z.to_nat hl then (if mapped then Fault Uninit else Ok None)
    else if negb (alloc sizeof_npy) then Ok None
    else rbind (parse_header (firstn (Z.to_nat hl) body ++ [nul])) (fun q =>
    match q with (endian, t, es, fortran, dims) =>
      let shape := dims ++ repeat 0%Z (max_dims - length dims) in
      if mapped then Ok (Some (mk_npy (skipn (Z.to_nat hl) body) shape (length dims) endian t es fortran true))
      else
        let size := to_size (count_elements shape 1 * es) in
        if negb (alloc size) then Ok None
        else
        if (size <=? Z.of_nat (length (skipn (Z.to_nat hl) body)))%Z
        then Ok (Some (mk_npy (firstn (Z.to_nat size) (skipn (Z.to_nat hl) body)) shape (length dims) endian t es fortran false))
        else Ok None
    end)).
  Proof. destruct mapped; reflexivity. Qed.

  Lemma parse_described text e t es fo dims : describes text e t es fo dims -> (0 < es < 9223372036854775808)%Z ->
    length dims < 8 -> Forall (fun d => (d < 9223372036854775808)%Z) dims ->
    parse_header (text ++ [nul]) = Ok (e, t, es, fo, dims).
  Proof.
    intros (num & shape & tail & -> & HN & HS & HE & HT & HF) Hes HD HB.
    exact (parse_header_ok e t num es fo dims shape tail HE HT Hes HN HS HF HD HB).
  Qed.

  Lemma product_bound dims : positive dims -> forall b, (product dims < b)%Z -> Forall (fun d => (d < b)%Z) dims.
  Proof.
    induction 1 as [|d l Hd H IH]; intros b HB; constructor.
    - rewrite product_cons in HB. pose proof (product_pos l H). nia.
    - apply IH. rewrite product_cons in HB. pose proof (product_pos l H). nia.
  Qed.

  Lemma le16_split n : le16 n = [ascii_of_nat (n mod 256); ascii_of_nat (n / 256)].
  Proof. reflexivity. Qed.

  (** what the reader does with header text and rest *)
  Lemma read_body mapped minor text rest e t es fo dims :
    describes text e t es fo dims -> (0 < es < 9223372036854775808)%Z -> length dims < 8 ->
    Forall (fun d => (d < 9223372036854775808)%Z) dims ->
    length text mod 256 < 128 -> length text / 256 < 128 ->
    read_matrix alloc mapped (npy_file minor text rest) =
    if negb (alloc sizeof_npy) then Ok None
    else let shape := dims ++ repeat 0%Z (8 - length dims) in
      if mapped then Ok (Some (mk_npy rest shape (length dims) e t es fo true))
      else
        let size := to_size (count_elements shape 1 * es) in
        if negb (alloc size) then Ok None
        else if (size <=? Z.of_nat (length rest))%Z
        then Ok (Some (mk_npy (firstn (Z.to_nat size) rest) shape (length dims) e t es fo false))
        else Ok None.
  Proof.
    intros HD Hes HN HB H1 H2. unfold npy_file. rewrite le16_split. rewrite read_step.
    rewrite header_length_ok by assumption. cbn [rbind]. rewrite Nat2Z.id.
    rewrite firstn_app, firstn_all, Nat.sub_diag. cbn [firstn]. rewrite app_nil_r.
    rewrite skipn_app, skipn_all, Nat.sub_diag. cbn [skipn app].
    rewrite Nat.ltb_irrefl. destruct (negb (alloc sizeof_npy)); [reflexivity|].
    rewrite (parse_described _ _ _ _ _ _ HD Hes HN HB). cbn [rbind]. unfold max_dims. reflexivity.
  Qed.
End Read.

(** ** writing *)
Lemma digits_low f : forall z, (1 <= z < 10 ^ Z.of_nat f)%Z -> 1 <= length (digits f z) /\ (10 ^ Z.of_nat (length (digits f z) - 1) <= z)%Z.
Proof.
  induction f as [|f IH]; intros z H; [change (10 ^ Z.of_nat 0)%Z with 1%Z in H; lia|].
  cbn [digits]. rewrite app_length. cbn [length]. destruct (Z.ltb_spec z 10) as [L|L].
  - cbn [length]. change (10 ^ Z.of_nat (0 + 1 - 1))%Z with 1%Z. lia.
  - assert (B : (1 <= z / 10 < 10 ^ Z.of_nat f)%Z).
    { split; [apply Z.div_le_lower_bound; lia|]. apply Z.div_lt_upper_bound; [lia|].
      rewrite Nat2Z.inj_succ, Z.pow_succ_r in H by lia. lia. }
    destruct (IH _ B) as (I1 & I2). split; [lia|].
    replace (length (digits f (z / 10)) + 1 - 1) with (S (length (digits f (z / 10)) - 1)) by lia.
    rewrite Nat2Z.inj_succ, Z.pow_succ_r by lia. pose proof (Z.mul_div_le z 10 ltac:(lia)). nia.
Qed.

Lemma fmt_zu_numeral z : (0 < z < size_max1)%Z -> numeral z (fmt_zu z).
Proof.
  intros H. left. split; [lia|]. unfold fmt_zu. split; [apply digits_nonempty; lia|]. apply digits_val; [|lia].
  change (10 ^ Z.of_nat 20)%Z with 100000000000000000000%Z. unfold size_max1 in H. lia.
Qed.

Lemma int_of_small d : (0 <= d < 2147483648)%Z -> int_of_size d = d.
Proof. intros H. unfold int_of_size. rewrite Z.mod_small by lia. destruct (Z.ltb_spec d 2147483648); lia. Qed.

Definition shape_bytes (dims : list Z) : bytes := flat_map (fun d => digits 11 d ++ chars ",") dims.

Lemma print_shape_ok shape : forall n i, i + n <= length shape ->
  Forall (fun d => (0 <= d < 2147483648)%Z) (firstn n (skipn i shape)) ->
  print_shape n i shape = Ok (shape_bytes (firstn n (skipn i shape))).
Proof.
  induction n as [|n IH]; intros i HL HF; [reflexivity|]. cbn [print_shape].
  destruct (nth_error shape i) as [d|] eqn:En; [|apply nth_error_None in En; lia].
  assert (SK : skipn i shape = d :: skipn (S i) shape).
  { clear - En. revert i En. induction shape as [|x l IH]; intros i En; [destruct i; discriminate|].
    destruct i; [cbn in En; inversion En; reflexivity|]. cbn in En. cbn [skipn]. apply IH in En. exact En. }
  rewrite SK in *. cbn [firstn] in *. pose proof (Forall_inv HF) as Hd. pose proof (Forall_inv_tail HF) as HF'. cbn beta in Hd.
  rewrite IH by (try lia; exact HF'). cbn [rbind]. unfold shape_bytes. cbn [flat_map]. rewrite int_of_small by lia.
  unfold fmt_d. destruct (Z.ltb_spec d 0); [lia|]. rewrite <- app_assoc. reflexivity.
Qed.

Lemma shape_bytes_text dims : Forall (fun d => (0 <= d < 2147483648)%Z) dims -> shape_text dims (shape_bytes dims).
Proof.
  assert (SC : separator ",") by (repeat split; try discriminate; unfold a_digit; change (nat_of_ascii ",") with 44; lia).
  assert (G : forall dims, Forall (fun d => (0 <= d < 2147483648)%Z) dims ->
     forall sep, Forall separator sep -> shape_text dims (sep ++ shape_bytes dims)).
  { induction 1 as [|d l Hd H IH]; intros sep HS; [constructor; rewrite app_nil_r; exact HS|].
    unfold shape_bytes. cbn [flat_map]. rewrite <- app_assoc. constructor; [exact HS|lia| | |].
    - left. split; [lia|]. split; [apply digits_nonempty; lia|]. apply digits_val; [|lia].
      change (10 ^ Z.of_nat 11)%Z with 100000000000%Z. lia.
    - cbn. unfold a_digit. change (nat_of_ascii ",") with 44. lia.
    - apply (IH (chars ",")). constructor; [exact SC|constructor]. }
  intros H. exact (G dims H [] (Forall_nil _)).
Qed.

Lemma shape_bytes_len dims : Forall (fun d => (0 < d < 2147483648)%Z) dims ->
  2 * length dims <= length (shape_bytes dims) /\ (10 ^ Z.of_nat (length (shape_bytes dims) - 2 * length dims) <= product dims)%Z.
Proof.
  induction 1 as [|d l Hd H IH]; [cbn; lia|]. destruct IH as (I1 & I2).
  unfold shape_bytes in *. cbn [flat_map length]. rewrite !app_length. change (length (chars ",")) with 1.
  destruct (digits_low 11 d) as (D1 & D2); [change (10 ^ Z.of_nat 11)%Z with 100000000000%Z; lia|].
  split; [lia|]. rewrite product_cons.
  replace (length (digits 11 d) + 1 + length (flat_map (fun d => digits 11 d ++ chars ",") l) - 2 * S (length l))
    with ((length (digits 11 d) - 1) + (length (flat_map (fun d => digits 11 d ++ chars ",") l) - 2 * length l)) by lia.
  rewrite Nat2Z.inj_add, Z.pow_add_r by lia.
  apply Z.mul_le_mono_nonneg; try assumption; apply Z.pow_nonneg; lia.
Qed.

Lemma storable_positive m : storable m -> positive (stored_dims m).
Proof. intros (_ & _ & H & _). eapply Forall_impl; [|exact H]. cbn. lia. Qed.
Lemma stored_len m : storable m -> length (stored_dims m) = np_ndim m.
Proof. intros (A & B & _). unfold stored_dims. rewrite firstn_length. lia. Qed.

Lemma dict_len m : storable m -> length (dict_text m (shape_bytes (stored_dims m))) < 108.
Proof.
  intros HS. pose proof (storable_positive m HS) as HP. pose proof (stored_len m HS) as SL.
  destruct HS as (A & B & C & D & E & F & G).
  destruct (shape_bytes_len _ C) as (L1 & L2). pose proof (product_pos _ HP) as PP.
  destruct (digits_low 20 (np_elem m)) as (M1 & M2).
  { change (10 ^ Z.of_nat 20)%Z with 100000000000000000000%Z. nia. }
  assert (X : (length (shape_bytes (stored_dims m)) - 2 * length (stored_dims m)) + (length (digits 20 (np_elem m)) - 1) < 20).
  { assert (P : (10 ^ Z.of_nat ((length (shape_bytes (stored_dims m)) - 2 * length (stored_dims m)) + (length (digits 20 (np_elem m)) - 1)) < 10 ^ 20)%Z).
    { rewrite Nat2Z.inj_add, Z.pow_add_r by lia. change (10 ^ 20)%Z with 100000000000000000000%Z.
      eapply Z.le_lt_trans; [apply Z.mul_le_mono_nonneg; [apply Z.pow_nonneg; lia|exact L2|apply Z.pow_nonneg; lia|exact M2]|]. lia. }
    apply Z.pow_lt_mono_r_iff in P; lia. }
  unfold dict_text. rewrite !app_length. unfold fmt_zu. cbn [length].
  change (length (chars "{'descr': '")) with 11. change (length (chars "', 'fortran_order': ")) with 20.
  change (length (chars ", 'shape': (")) with 12. change (length (chars "), }")) with 4.
  assert (length (chars (if np_fortran m then "True" else "False")) <= 5) by (destruct (np_fortran m); cbn; lia).
  lia.
Qed.

(** ** the header *)
Definition header_text (m : npy) (shape : bytes) : bytes :=
  dict_text m shape ++ repeat " "%char (117 - length (dict_text m shape)) ++ [nl].

Lemma get_header_eq m shape : print_shape (np_ndim m) 0 (np_shape m) = Ok shape -> length (dict_text m shape) < 108 ->
  npy_get_header m = Ok (npy_magic ++ ["001"%char; "000"%char] ++ le16 118 ++ header_text m shape)
  /\ length (header_text m shape) = 118.
Proof.
  intros E L.
  assert (LT : length (header_text m shape) = 118).
  { unfold header_text. rewrite !app_length, repeat_length. cbn [length]. lia. }
  split; [|exact LT]. unfold npy_get_header. rewrite E. cbn [rbind].
  destruct (Nat.ltb_spec (length (dict_text m shape)) 108); [|lia].
  replace (Nat.max 1 (108 - length (dict_text m shape) + 10 - 1)) with (117 - length (dict_text m shape)) by lia.
  fold (header_text m shape). rewrite LT. reflexivity.
Qed.

Lemma guess_byte_order m : byte_order m (guess_endianness m).
Proof.
  unfold byte_order, guess_endianness. split.
  - intros [E|[E|[E|[]]]]; rewrite <- E; reflexivity.
  - intros N.
    assert (X : negb (in_endian (np_endian m)) || Ascii.eqb (np_endian m) nul = true).
    { unfold in_endian. destruct (Ascii.eqb_spec (np_endian m) "<") as [E|_]; [destruct N; rewrite E; left; reflexivity|].
      destruct (Ascii.eqb_spec (np_endian m) ">") as [E|_]; [destruct N; rewrite E; right; left; reflexivity|].
      destruct (Ascii.eqb_spec (np_endian m) "|") as [E|_]; [destruct N; rewrite E; right; right; left; reflexivity|].
      destruct (Ascii.eqb (np_endian m) nul); reflexivity. }
    rewrite X. split.
    + intros [->| ->]; [reflexivity|]. destruct (np_elem m =? 1)%Z; reflexivity.
    + intros A B. destruct (Z.eqb_spec (np_elem m) 1) as [E|_]; [contradiction|].
      destruct (Ascii.eqb_spec (np_type m) "S") as [E|_]; [contradiction|reflexivity].
Qed.

Lemma header_describes m : storable m ->
  describes (header_text m (shape_bytes (stored_dims m))) (guess_endianness m) (np_type m) (np_elem m) (np_fortran m) (stored_dims m).
Proof.
  intros HS. pose proof (storable_positive m HS) as HP. destruct HS as (A & B & C & D & E & F & G).
  exists (fmt_zu (np_elem m)), (shape_bytes (stored_dims m)),
    (txt ", }" ++ repeat " "%char (117 - length (dict_text m (shape_bytes (stored_dims m)))) ++ [nl]).
  split. { unfold header_text, dict_text at 1, npy_dict. rewrite <- !app_assoc. reflexivity. }
  split. { apply fmt_zu_numeral. pose proof (product_pos _ HP). unfold size_max1. nia. }
  split. { apply shape_bytes_text. eapply Forall_impl; [|exact C]. cbn. lia. }
  split. { unfold guess_endianness, in_endian.
    destruct (Ascii.eqb_spec (np_endian m) "<") as [-> |]; [left; reflexivity|].
    destruct (Ascii.eqb_spec (np_endian m) ">") as [-> |]; [right; left; reflexivity|].
    destruct (Ascii.eqb_spec (np_endian m) "|") as [-> |]; [right; right; left; reflexivity|].
    destruct (Ascii.eqb (np_endian m) nul); cbn [orb negb]; (destruct (np_elem m =? 1)%Z; [right; right; left; reflexivity|]);
      (destruct (Ascii.eqb (np_type m) "S"); [right; right; left; reflexivity|left; reflexivity]). }
  split; [exact E|]. apply Forall_app. split; [repeat constructor; discriminate|].
  apply Forall_app. split; [|repeat constructor; discriminate]. apply Forall_forall. intros c Hc. apply repeat_spec in Hc. subst c. discriminate.
Qed.

Lemma save_eq m : storable m ->
  npy_save m = Ok (npy_file "000" (header_text m (shape_bytes (stored_dims m))) (np_data m))
  /\ length (header_text m (shape_bytes (stored_dims m))) = 118.
Proof.
  intros HS. pose proof (storable_positive m HS) as HP. pose proof (dict_len m HS) as DL. pose proof (product_pos _ HP) as PP.
  destruct HS as (A & B & C & D & E & F & G).
  destruct (get_header_eq m (shape_bytes (stored_dims m))) as (H1 & H2); [apply print_shape_ok; [lia|eapply Forall_impl; [|exact C]; cbn; lia]|exact DL|].
  split; [|exact H2]. unfold npy_save. rewrite H1. cbn [rbind].
  rewrite datasize_ok by (try assumption; fold (stored_dims m); unfold size_max1; lia). cbn [rbind]. fold (stored_dims m).
  rewrite <- F. rewrite Z.leb_refl. rewrite Nat2Z.id, firstn_all. unfold npy_file. rewrite H2, <- !app_assoc. reflexivity.
Qed.

Lemma npy_file_len minor text data : length (npy_file minor text data) = 10 + length text + length data.
Proof. unfold npy_file. rewrite !app_length. cbn [length npy_magic txt list_ascii_of_string le16]. lia. Qed.

(** a file cut short *)
Lemma load_short alloc minor text data e t es fo dims k :
  describes text e t es fo dims -> (0 < es)%Z -> length dims < 8 -> positive dims ->
  length text mod 256 < 128 -> length text / 256 < 128 ->
  (Z.of_nat (length data) = product dims * es)%Z -> (product dims * es < 9223372036854775808)%Z ->
  k < length (npy_file minor text data) -> npy_load alloc (firstn k (npy_file minor text data)) = Ok None.
Proof.
  intros HD Hes HN HP H1 H2 HL HB HK. rewrite npy_file_len in HK. unfold npy_load.
  pose proof (product_pos dims HP) as PP.
  assert (BD : Forall (fun d => (d < 9223372036854775808)%Z) dims) by (apply product_bound; [exact HP|nia]).
  destruct (Nat.lt_ge_cases k 10) as [L|L].
  - unfold read_matrix. assert (LP : length (firstn 10 (firstn k (npy_file minor text data))) < 10).
    { rewrite !firstn_length. lia. }
    apply Nat.ltb_lt in LP. cbv zeta. rewrite LP. reflexivity.
  - assert (EQ : firstn k (npy_file minor text data)
       = npy_magic ++ ["001"%char; minor] ++ [ascii_of_nat (length text mod 256); ascii_of_nat (length text / 256)] ++ firstn (k - 10) (text ++ data)).
    { replace k with (10 + (k - 10)) at 1 by lia. reflexivity. }
    destruct (Nat.lt_ge_cases (k - 10) (length text)) as [L2|L2].
    + rewrite EQ, read_step, header_length_ok by assumption. cbn [rbind]. rewrite Nat2Z.id.
      assert (LP : length (firstn (length text) (firstn (k - 10) (text ++ data))) < length text).
      { rewrite !firstn_length. lia. }
      apply Nat.ltb_lt in LP. rewrite LP. reflexivity.
    + assert (EQ2 : firstn k (npy_file minor text data) = npy_file minor text (firstn (k - 10 - length text) data)).
      { rewrite EQ. unfold npy_file. rewrite le16_split. f_equal. f_equal. f_equal. rewrite firstn_app. rewrite firstn_all2 by lia. reflexivity. }
      rewrite EQ2. rewrite (read_body alloc false minor text _ e t es fo dims HD) by (try assumption; nia).
      destruct (negb (alloc sizeof_npy)); [reflexivity|]. cbv zeta.
      rewrite count_ok by (try exact HP; unfold size_max1; nia). rewrite Z.mul_1_l.
      rewrite to_size_small by (unfold size_max1; nia).
      destruct (negb (alloc (product dims * es)%Z)); [reflexivity|].
      destruct (Z.leb_spec (product dims * es) (Z.of_nat (length (firstn (k - 10 - length text) data)))) as [Q|_]; [|reflexivity].
      rewrite firstn_length in Q. lia.
Qed.

(** ** more than 7 dimensions *)
Lemma scan_shape_many dims s : shape_text dims s -> forall fuel r dims0,
  length s < fuel -> length dims0 < 8 -> 8 <= length dims0 + length dims ->
  scan_shape fuel (s ++ ")"%char :: r) dims0 = Fault AssertFailed.
Proof.
  induction 1 as [s HS|d dims sep num s HS Hd HN HF HT IH]; intros fuel r dims0 LF L8 LD.
  - cbn [length] in LD. lia.
  - rewrite !app_length in LF. rewrite <- !app_assoc. rewrite scan_skip by (try exact HS; lia).
    destruct (numeral_pos d num Hd HN) as (NE & V). pose proof (value_all _ _ _ V) as AD.
    destruct (fuel - length sep) as [|f] eqn:E; [lia|]. destruct num as [|c num]; [congruence|].
    pose proof (Forall_inv AD) as Dc. cbn beta in Dc.
    assert (TD : take_digits ((c :: num) ++ s ++ ")"%char :: r) = c :: num).
    { apply take_digits_app; [exact AD|]. destruct s as [|c' s']; [|exact HF]. cbn [app]. unfold no_digit_first, a_digit.
      change (nat_of_ascii ")") with 41. lia. }
    change ((c :: num) ++ s ++ ")"%char :: r) with (c :: (num ++ s ++ ")"%char :: r)) in *.
    cbn [scan_shape]. destruct (Ascii.eqb_spec c ")") as [->|NC]; [discriminate Dc|].
    rewrite digit_of_digit, Dc. rewrite TD. rewrite app_length. cbn [length].
    destruct (Nat.ltb_spec (length dims0 + 1) max_dims) as [L|L]; [|reflexivity]. unfold max_dims in L.
    cbn [length skipn].
    replace (skipn (length num) (num ++ s ++ ")"%char :: r)) with (s ++ ")"%char :: r).
    2:{ rewrite skipn_app, skipn_all, Nat.sub_diag. reflexivity. }
    apply IH; cbn [length] in *; rewrite ?app_length; cbn [length]; lia.
Qed.

Lemma parse_many text e t es fo dims : describes text e t es fo dims -> (0 < es < 9223372036854775808)%Z ->
  8 <= length dims -> parse_header (text ++ [nul]) = Fault AssertFailed.
Proof.
  intros (num & shape & tail & -> & HN & HS & HE & HT & HF) Hes HD.
  rewrite (parse_header_gen e t num es fo dims shape tail HE HT Hes HN HS HF).
  rewrite (scan_shape_many dims _ (paren_shape e t num fo dims shape tail HS)); [reflexivity| |cbn; lia|exact HD].
  apply text_len.
Qed.
