(** Prop_Npy2.v -- C65, C66: reading arbitrary files. *)
From Coq Require Import ZArith Bool String Ascii List Lia.
From Verif Require Import Base BaseProofs Logger SpecLog LoggerProofs Npy SpecNpy NpyProofs NpyProofs2.
Import ListNotations.
Local Open Scope nat_scope.

(** the file begins like a version 1 file *)
Definition version1 (content : list ascii) : Prop := exists rest, content = npy_magic ++ "001"%char :: rest.

(** ** lemmas *)
Lemma check_magic_ok mg : forall i pre, i + length mg <= length pre ->
  check_magic mg i pre = Ok (if list_eq_dec ascii_dec (firstn (length mg) (skipn i pre)) mg then true else false).
Proof.
  induction mg as [|c mg IH]; intros i pre H; [reflexivity|]. cbn [length] in H. cbn [check_magic length firstn].
  destruct (nth_error pre i) as [d|] eqn:E; [|apply nth_error_None in E; lia].
  unfold pre_at. rewrite E. cbn [rbind].
  assert (SK : skipn i pre = d :: skipn (S i) pre).
  { clear -E. revert pre E. induction i as [|i IH]; intros [|x pre] E; cbn in E; try discriminate; [injection E as ->; reflexivity|]. apply (IH pre E). }
  rewrite SK. cbn [firstn]. destruct (Ascii.eqb_spec c d) as [->|N].
  - rewrite IH by lia. f_equal. destruct (list_eq_dec _ _ _) as [Q|Q]; destruct (list_eq_dec _ _ _) as [Q'|Q']; try reflexivity.
    + destruct Q'. f_equal. exact Q.
    + destruct Q. injection Q'. auto.
  - destruct (list_eq_dec _ _ _) as [Q|Q]; [injection Q; congruence|reflexivity].
Qed.

Lemma schar_one c : schar c = 1%Z -> c = "001"%char.
Proof.
  unfold schar. intros H. rewrite <- (ascii_nat_embedding c). pose proof (nat_ascii_bounded c).
  destruct (Z.ltb_spec (Z.of_nat (nat_of_ascii c)) 128); cbv zeta in H.
  - replace (nat_of_ascii c) with 1 by lia. reflexivity.
  - lia.
Qed.

Lemma refuse_file alloc mapped content : 10 <= length content -> ~ version1 content -> read_matrix alloc mapped content = Ok None.
Proof.
  intros L N. unfold read_matrix. cbv zeta. assert (LP : length (firstn 10 content) = 10) by (rewrite firstn_length; lia).
  rewrite LP. rewrite Nat.ltb_irrefl, andb_false_r. rewrite check_magic_ok by (rewrite LP; cbn; lia).
  change (length magic) with 6. cbn [skipn]. rewrite firstn_firstn. change (Nat.min 6 10) with 6.
  destruct (list_eq_dec ascii_dec (firstn 6 content) magic) as [EQ|NE]; [|reflexivity]. cbn [rbind negb].
  assert (P : forall i, i < 10 -> exists c, pre_at (firstn 10 content) i = Ok c /\ nth_error content i = Some c).
  { intros i Hi. destruct (nth_error content i) as [c|] eqn:E; [|apply nth_error_None in E; lia].
    exists c. split; [|reflexivity]. unfold pre_at. rewrite <- (firstn_skipn 10 content) in E. rewrite nth_error_app1 in E by lia. rewrite E. reflexivity. }
  destruct (P 6) as (c6 & E6 & N6); [lia|]. destruct (P 7) as (c7 & E7 & N7); [lia|]. rewrite E6, E7. cbn [rbind].
  destruct (Z.eqb_spec (schar c6) 1) as [O|]; [|reflexivity]. exfalso. apply N.
  exists (skipn 7 content). rewrite <- (schar_one _ O).
  assert (SK : skipn 6 content = c6 :: skipn 7 content).
  { clear -N6. revert N6. generalize 6. intros i. revert content. induction i as [|i IH]; intros [|x l] E; cbn in E; try discriminate; [injection E as ->; reflexivity|]. apply (IH l E). }
  rewrite <- SK. change npy_magic with magic. rewrite <- EQ. symmetry. apply firstn_skipn.
Qed.

(** ** C65: what is not a version 1 file is refused, whatever its bytes are *)
Theorem npy_load_refuses (alloc : Z -> bool) content :
  length content < 10 \/ ~ version1 content -> npy_load alloc content = Ok None.
Proof.
  intros H. unfold npy_load. destruct (Nat.lt_ge_cases (length content) 10) as [L|L].
  - unfold read_matrix. cbv zeta. cbn [negb andb]. rewrite firstn_length, Nat.min_r by lia.
    destruct (Nat.ltb_spec (length content) 10); [reflexivity|lia].
  - destruct H as [H|H]; [lia|]. apply refuse_file; assumption.
Qed.
Print Assumptions npy_load_refuses.

Theorem npy_mmap_refuses (alloc : Z -> bool) content :
  content = [] \/ (10 <= length content /\ ~ version1 content) -> npy_mmap alloc content = Ok None.
Proof.
  unfold npy_mmap. intros [->|(L & N)]; [reflexivity|]. destruct content; [reflexivity|]. apply refuse_file; assumption.
Qed.
Print Assumptions npy_mmap_refuses.

(** a file of version 2, and one that is not a .npy file *)
Example npy_refuses_ex :
  let v2 := npy_magic ++ map ascii_of_nat [2; 0; 4; 0; 0; 0; 123; 125; 32; 10] in let zip := txt "PK" ++ repeat "a"%char 20 in
  (10 <= length v2 /\ ~ version1 v2 /\ npy_load (fun _ => true) v2 = Ok None)
  /\ (10 <= length zip /\ ~ version1 zip /\ npy_mmap (fun _ => true) zip = Ok None).
Proof. cbv zeta. split; (split; [cbn; lia|]; split; [intros (r & E); vm_compute in E; discriminate|vm_compute; reflexivity]). Qed.

(** ** C66: the data of a loaded array *)
(** the dimensions up to the first that is not positive *)
Fixpoint leading (dims : list Z) : list Z :=
  match dims with d :: r => if (0 <? d)%Z then d :: leading r else [] | [] => [] end.

Lemma leading_positive dims : positive dims -> leading dims = dims.
Proof. intros P. induction P as [|d r H P IH]; [reflexivity|]. cbn [leading]. destruct (Z.ltb_spec 0 d); [|lia]. rewrite IH. reflexivity. Qed.
Lemma leading_zeros dims k : leading (dims ++ repeat 0%Z k) = leading dims.
Proof.
  induction dims as [|d r IH]; cbn [app leading].
  - destruct k; reflexivity.
  - rewrite IH. reflexivity.
Qed.
Lemma count_leading l : forall n, (0 <= n < size_max1)%Z -> count_elements l n = ((n * product (leading l)) mod size_max1)%Z.
Proof.
  induction l as [|d l IH]; intros n H; cbn [count_elements leading].
  - cbn [product fold_right]. rewrite Z.mul_1_r, Z.mod_small by exact H. reflexivity.
  - destruct (Z.ltb_spec 0 d).
    + rewrite IH by (apply Z.mod_pos_bound; reflexivity). cbn [product fold_right]. fold (product (leading l)).
      unfold to_size. rewrite Z.mul_mod_idemp_l by discriminate. f_equal. ring.
    + cbn [product fold_right]. rewrite Z.mul_1_r, Z.mod_small by exact H. reflexivity.
Qed.
Lemma datasize_leading m : length (np_shape m) = 8 -> np_ndim m <= 7 ->
  npy_datasize m = Ok ((product (leading (stored_dims m)) * np_elem m) mod size_max1)%Z.
Proof.
  intros L N. unfold npy_datasize. rewrite L.
  assert (G : forall k idx f n, idx + k = np_ndim m -> k < f -> (0 <= n < size_max1)%Z ->
     datasize_from f m idx n = Ok ((n * product (leading (firstn k (skipn idx (np_shape m))))) mod size_max1)%Z).
  { induction k as [|k IH]; intros idx f n E F H; (destruct f as [|f]; [lia|]); cbn [datasize_from];
      (destruct (nth_error (np_shape m) idx) as [d|] eqn:ED; [|apply nth_error_None in ED; lia]).
    - destruct (Nat.ltb_spec idx (np_ndim m)); [lia|]. rewrite andb_false_r. cbn [firstn leading product fold_right].
      rewrite Z.mul_1_r, Z.mod_small by exact H. reflexivity.
    - destruct (Nat.ltb_spec idx (np_ndim m)); [|lia]. rewrite andb_true_r.
      assert (SK : skipn idx (np_shape m) = d :: skipn (S idx) (np_shape m)).
      { clear -ED. revert ED. generalize (np_shape m). induction idx as [|i IH]; intros [|x l] E; cbn in E; try discriminate; [injection E as ->; reflexivity|]. apply (IH l E). }
      rewrite SK. cbn [firstn leading]. destruct (Z.ltb_spec 0 d).
      + rewrite (IH (S idx)) by (try lia; apply Z.mod_pos_bound; reflexivity). cbn [product fold_right].
        fold (product (leading (firstn k (skipn (S idx) (np_shape m))))).
        unfold to_size. rewrite Z.mul_mod_idemp_l by discriminate. f_equal. f_equal. ring.
      + cbn [product fold_right]. rewrite Z.mul_1_r, Z.mod_small by exact H. reflexivity. }
  rewrite (G (np_ndim m) 0) by (try lia; unfold size_max1; lia). cbn [rbind skipn]. fold (stored_dims m).
  unfold to_size. rewrite Z.mul_1_l, Z.mul_mod_idemp_l by discriminate. reflexivity.
Qed.
Lemma parse_nonneg s : forall a, (0 <= a)%Z -> (0 <= parse a s)%Z.
Proof.
  induction s as [|c s IH]; intros a H; cbn [parse]; [exact H|]. unfold digit_of. cbv zeta. destruct (_ && _); [|exact H]. apply IH. lia.
Qed.
Lemma scan_shape_len f : forall s dims r, length dims <= 7 -> scan_shape f s dims = Ok r -> length r <= 7 /\ exists q, r = dims ++ q /\ Forall (fun d => 0 <= d < 9223372036854775808)%Z q.
Proof.
  induction f as [|f IH]; intros s dims r L H; [discriminate|]. cbn [scan_shape] in H. destruct s as [|c s]; [discriminate|].
  destruct (Ascii.eqb c ")").
  { injection H as <-. split; [exact L|]. exists []. rewrite app_nil_r. split; [reflexivity|constructor]. }
  destruct (digit_of c) as [dg|].
  - set (d := clamp _) in H. cbv zeta in H. rewrite app_length in H. cbn [length] in H. change max_dims with 8 in H.
    destruct (Nat.ltb_spec (length dims + 1) 8) as [L8|]; [|discriminate]. apply IH in H; [|rewrite app_length; cbn; lia].
    destruct H as (H1 & q & -> & H2). split; [exact H1|]. exists (d :: q). split; [rewrite <- app_assoc; reflexivity|]. constructor; [|exact H2].
    unfold d, clamp. pose proof (parse_nonneg (take_digits (c :: s)) 0%Z ltac:(lia)). lia.
  - apply IH in H; assumption.
Qed.

Lemma parse_header_sound h e t es fo dims : parse_header h = Ok (e, t, es, fo, dims) ->
  (0 < es < size_max1)%Z /\ length dims <= 7 /\ Forall (fun d => 0 <= d < 9223372036854775808)%Z dims.
Proof.
  unfold parse_header. intros H.
  destruct (find_header_item "'descr': '" h) as [[d|]|]; cbn [rbind] in H; try discriminate.
  destruct (char_at h d) as [e'|]; cbn [rbind] in H; [|discriminate].
  destruct (char_at h (d + 1)) as [t'|]; cbn [rbind] in H; [|discriminate].
  destruct (cstr (skipn (d + 2) h)) as [s|]; [|discriminate].
  destruct (Z.eqb_spec (to_size (strtol s)) 0) as [|NZ]; [discriminate|].
  destruct (find_header_item "'fortran_order': " h) as [[f|]|]; cbn [rbind] in H; try discriminate.
  destruct (find_header_item "'shape': " h) as [[p|]|]; cbn [rbind] in H; try discriminate.
  destruct (scan_shape _ _ []) as [ds|] eqn:ES; cbn [rbind] in H; [|discriminate].
  injection H as <- <- <- <- <-. pose proof (Z.mod_pos_bound (strtol s) size_max1 eq_refl) as B. fold (to_size (strtol s)) in B.
  split; [lia|]. apply scan_shape_len in ES; [|cbn; lia]. destruct ES as (L & q & -> & F). split; [exact L|exact F].
Qed.

(** whatever the bytes of the file are: if an array is returned, its data is a part of the file behind the header and
    has the size that is the product of the leading dimensions and the element size, modulo 2^64;
    npy_array_calculate_datasize returns the size of the data *)
Theorem npy_load_data (alloc : Z -> bool) content m : npy_load alloc content = Ok (Some m) ->
  version1 content
  /\ (exists before after, content = before ++ np_data m ++ after /\ 10 <= length before)
  /\ length (np_shape m) = 8 /\ np_ndim m <= 7 /\ Forall (fun d => 0 <= d < 9223372036854775808)%Z (stored_dims m)
  /\ (0 < np_elem m < 18446744073709551616)%Z /\ np_mapped m = false
  /\ Z.of_nat (length (np_data m)) = ((product (leading (stored_dims m)) * np_elem m) mod 18446744073709551616)%Z
  /\ npy_datasize m = Ok (Z.of_nat (length (np_data m))).
Proof.
  intros H.
  assert (V : version1 content).
  { destruct (Nat.lt_ge_cases (length content) 10) as [L|L].
    - rewrite npy_load_refuses in H by (left; exact L). discriminate.
    - destruct (list_eq_dec ascii_dec (firstn 7 content) (npy_magic ++ ["001"%char])) as [E|N].
      + exists (skipn 7 content). rewrite <- (firstn_skipn 7 content) at 1. rewrite E, <- app_assoc. reflexivity.
      + rewrite npy_load_refuses in H; [discriminate|]. right. intros (r & ->). apply N. reflexivity. }
  split; [exact V|]. unfold npy_load, read_matrix in H. cbv zeta in H. cbn [negb andb] in H.
  destruct (Nat.ltb_spec (length (firstn 10 content)) 10) as [|LP]; [discriminate|]. rewrite firstn_length in LP.
  destruct (check_magic magic 0 (firstn 10 content)) as [[|]|]; cbn [rbind negb] in H; try discriminate.
  destruct (pre_at (firstn 10 content) 6) as [c6|]; cbn [rbind] in H; [|discriminate].
  destruct (pre_at (firstn 10 content) 7) as [c7|]; cbn [rbind] in H; [|discriminate].
  destruct (negb (schar c6 =? 1)%Z); [discriminate|].
  destruct (pre_at (firstn 10 content) 8) as [c8|]; cbn [rbind] in H; [|discriminate].
  destruct (pre_at (firstn 10 content) 9) as [c9|]; cbn [rbind] in H; [|discriminate].
  destruct (header_length c8 c9) as [hl|]; cbn [rbind] in H; [|discriminate].
  set (n := Z.to_nat hl) in *. set (header := firstn n (skipn 10 content)) in *. set (rest := skipn n (skipn 10 content)) in *.
  destruct (length header <? n); [discriminate|]. destruct (alloc sizeof_npy); [|discriminate]. cbn [negb] in H.
  destruct (parse_header (header ++ [nul])) as [[[[[e t] es] fo] dims]|] eqn:EP; cbn [rbind] in H; [|discriminate].
  destruct (parse_header_sound _ _ _ _ _ _ EP) as (ES & LD & FD).
  change max_dims with 8 in H.
  set (shape := dims ++ repeat 0%Z (8 - length dims)) in *. set (size := to_size (count_elements shape 1 * es)) in *.
  destruct (alloc size); [|discriminate]. cbn [negb] in H. destruct (Z.leb_spec size (Z.of_nat (length rest))) as [LE|]; [|discriminate].
  injection H as <-. cbn [np_data np_shape np_ndim np_elem np_mapped].
  assert (S0 : (0 <= size)%Z) by (apply Z.mod_pos_bound; reflexivity).
  assert (LEN : Z.of_nat (length (firstn (Z.to_nat size) rest)) = size) by (rewrite firstn_length; lia).
  assert (LS : length shape = 8) by (unfold shape; rewrite app_length, repeat_length; lia).
  assert (SD : stored_dims (mk_npy (firstn (Z.to_nat size) rest) shape (length dims) e t es fo false) = dims).
  { unfold stored_dims. cbn [np_ndim np_shape]. unfold shape. rewrite firstn_app, firstn_all, Nat.sub_diag. cbn [firstn]. apply app_nil_r. }
  rewrite SD.
  assert (SZ : size = ((product (leading dims) * es) mod size_max1)%Z).
  { unfold size, to_size. rewrite count_leading by (unfold size_max1; lia). unfold shape. rewrite leading_zeros, Z.mul_1_l.
    rewrite Z.mul_mod_idemp_l by discriminate. reflexivity. }
  split. { exists (firstn 10 content ++ header), (skipn (Z.to_nat size) rest). split.
           - rewrite <- app_assoc. rewrite (firstn_skipn (Z.to_nat size) rest). unfold header, rest. rewrite (firstn_skipn n (skipn 10 content)). symmetry. apply firstn_skipn.
           - rewrite app_length, firstn_length. lia. }
  split; [exact LS|]. split; [exact LD|]. split; [exact FD|]. split; [exact ES|]. split; [reflexivity|].
  split; [rewrite LEN; exact SZ|]. rewrite datasize_leading by assumption. rewrite SD. cbn [np_elem]. rewrite LEN, SZ. reflexivity.
Qed.
Print Assumptions npy_load_data.

(** so the data is what the dimensions promise if they are positive and the size does not wrap around *)
Theorem npy_load_promised_partial (alloc : Z -> bool) content m : npy_load alloc content = Ok (Some m) ->
  positive (stored_dims m) -> (product (stored_dims m) * np_elem m < 18446744073709551616)%Z ->
  Z.of_nat (length (np_data m)) = (product (stored_dims m) * np_elem m)%Z.
Proof.
  intros H P B. destruct (npy_load_data _ _ _ H) as (_ & _ & _ & _ & _ & E & _ & L & _). rewrite L, leading_positive by exact P.
  apply Z.mod_small. pose proof (product_pos _ P). nia.
Qed.
Print Assumptions npy_load_promised_partial.

(** REFUTED in general: a file of 118 bytes is loaded as an array of 2^32 x 2^32 floats, without any data *)
Definition huge_text : list ascii :=
  txt "{'descr': '<f4', 'fortran_order': False, 'shape': (4294967296, 4294967296), }" ++ repeat " "%char 30 ++ [newline].
Theorem npy_load_promised_refuted : exists content m, npy_load (fun _ => true) content = Ok (Some m)
  /\ positive (stored_dims m) /\ (Z.of_nat (length (np_data m)) < product (stored_dims m) * np_elem m)%Z.
Proof.
  exists (npy_file "000" huge_text []). eexists. split; [vm_compute; reflexivity|]. split; [|vm_compute; reflexivity].
  unfold positive, stored_dims. cbn. repeat constructor.
Qed.
Print Assumptions npy_load_promised_refuted.
Example npy_load_promised_ex : exists content m, npy_load (fun _ => true) content = Ok (Some m) /\ positive (stored_dims m)
  /\ (product (stored_dims m) * np_elem m < 18446744073709551616)%Z /\ length (np_data m) = 8.
Proof.
  exists (npy_file "000" (txt "{'descr': '<f4', 'fortran_order': False, 'shape': (2,), }" ++ [newline]) (repeat "A"%char 10)).
  eexists. split; [vm_compute; reflexivity|]. split; [unfold positive, stored_dims; cbn; repeat constructor|]. split; vm_compute; reflexivity.
Qed.
