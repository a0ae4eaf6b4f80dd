(** Prop_NpyMore.v -- C84, C85: npy_array_dump; unmapping. *)
From Coq Require Import ZArith Bool String Ascii List Lia.
From Verif Require Import Base BaseProofs Logger SpecLog LoggerProofs Npy SpecNpy NpyProofs NpyProofs2 Prop_Npy NpyMore SpecNpyMore.
Import ListNotations.
Local Open Scope nat_scope.

(** ** C84: printing *)
Lemma digits_first f : forall z, (0 <= z < 10 ^ Z.of_nat f)%Z -> 0 < f -> digits f z = ["0"%char] \/ hd "0"%char (digits f z) <> "0"%char.
Proof.
  induction f as [|f IH]; intros z H Hf; [lia|]. cbn [digits]. pose proof (mod10 z) as M. destruct (z <? 10)%Z eqn:E.
  - apply Z.ltb_lt in E. cbn [app]. destruct (Z.eq_dec z 0) as [->|N]; [left; reflexivity|right]. cbn [hd]. rewrite Z.mod_small by lia.
    intros C. apply (f_equal nat_of_ascii) in C. rewrite digit_char in C by lia. change (nat_of_ascii "0"%char) with 48 in C. lia.
  - apply Z.ltb_ge in E. assert (Hf' : 0 < f). { destruct f; [simpl in H; lia|lia]. }
    assert (HD : (1 <= z / 10 < 10 ^ Z.of_nat f)%Z).
    { split; [apply Z.div_le_lower_bound; lia|]. apply Z.div_lt_upper_bound; [lia|].
      replace (10 * 10 ^ Z.of_nat f)%Z with (10 ^ Z.of_nat (S f))%Z; [lia|]. rewrite Nat2Z.inj_succ, Z.pow_succ_r by lia. reflexivity. }
    right. destruct (IH (z / 10)%Z ltac:(lia) Hf') as [C|C].
    + pose proof (digits_val f (z / 10)%Z ltac:(lia) Hf') as V. rewrite C in V. cbn in V. injection V as V. lia.
    + pose proof (digits_nonempty f (z / 10)%Z Hf') as NE. destruct (digits f (z / 10)%Z) as [|c r]; [congruence|]. exact C.
Qed.
Lemma fmt_d_decimal z : (0 <= z < 2147483648)%Z -> decimal z (fmt_d z).
Proof.
  intros H. split; [apply fmt_d_numeral; lia|]. unfold fmt_d. destruct (Z.ltb_spec z 0); [lia|]. apply digits_first; [|lia].
  change (10 ^ Z.of_nat 11)%Z with 100000000000%Z. lia.
Qed.
Lemma int_of_size_small z : (0 <= z < 2147483648)%Z -> int_of_size z = z.
Proof. intros H. unfold int_of_size. rewrite Z.mod_small by lia. cbv zeta. destruct (Z.ltb_spec z 2147483648); [reflexivity|lia]. Qed.

Lemma dump_dims_ok shape n i : i + n <= length shape -> exists s, dump_dims n i shape = Ok s /\
  forall last, s ++ last = join (txt ", ") (map (fun d => fmt_d (int_of_size d)) (firstn n (skipn i shape)) ++ [last]).
Proof.
  revert i. induction n as [|n IH]; intros i H; cbn [dump_dims].
  - exists []. split; [reflexivity|]. intros last. reflexivity.
  - destruct (nth_error shape i) as [d|] eqn:E; [|apply nth_error_None in E; lia].
    destruct (IH (S i) ltac:(lia)) as (s & -> & J). cbn [rbind]. eexists. split; [reflexivity|]. intros last.
    assert (SK : skipn i shape = d :: skipn (S i) shape).
    { clear - E. revert i E. induction shape as [|x l IH]; intros i E; [destruct i; discriminate|]. destruct i; [cbn in E; inversion E; reflexivity|]. cbn in E. apply IH in E. exact E. }
    rewrite SK. cbn [firstn map app]. rewrite <- !app_assoc, J.
    generalize (map (fun d => fmt_d (int_of_size d)) (firstn n (skipn (S i) shape))). intros t. destruct t; reflexivity.
Qed.
Lemma last_dim (l : list Z) k : k < length l -> exists d, nth_error l k = Some d /\ firstn (S k) l = firstn k l ++ [d].
Proof.
  revert k. induction l as [|x l IH]; intros k H; [cbn in H; lia|]. destruct k; [exists x; split; reflexivity|].
  destruct (IH k ltac:(cbn in H; lia)) as (d & E & F). exists d. split; [exact E|]. cbn [firstn app] in *. f_equal. exact F.
Qed.

(** Every array with 1 to 8 dimensions is printed; the numbers are right if they are below 2^31. *)
Theorem npy_dump_partial (m : npy) : 1 <= np_ndim m <= length (np_shape m) -> length (np_shape m) = 8 ->
  exists nd ds es, npy_dump (Some m) = Ok (dump_text nd ds (np_type m) es (np_fortran m)) /\
    decimal (Z.of_nat (np_ndim m)) nd /\ length ds = np_ndim m /\
    (Forall (fun d => (0 <= d < 2147483648)%Z) (stored_dims m) -> decimals (stored_dims m) ds) /\
    ((0 <= np_elem m < 2147483648)%Z -> decimal (np_elem m) es).
Proof.
  intros H L. exists (fmt_d (Z.of_nat (np_ndim m))), (map (fun d => fmt_d (int_of_size d)) (stored_dims m)), (fmt_d (int_of_size (np_elem m))).
  unfold npy_dump, stored_dims. destruct (np_ndim m) as [|k] eqn:N; [lia|]. replace (S k - 1) with k by lia.
  destruct (dump_dims_ok (np_shape m) k 0 ltac:(lia)) as (s & -> & J). cbn [rbind].
  destruct (last_dim (np_shape m) k ltac:(lia)) as (d & -> & FD). cbn [rbind]. split.
  - unfold dump_text. rewrite FD, map_app. cbn [map skipn] in *. rewrite <- J. rewrite <- !app_assoc. reflexivity.
  - split; [apply fmt_d_decimal; lia|]. split. { rewrite map_length, firstn_length. lia. } split.
    + intros F. unfold decimals. clear - F. induction F as [|x l Hx F IH]; constructor; [rewrite int_of_size_small by exact Hx; apply fmt_d_decimal; exact Hx|exact IH].
    + intros F. rewrite int_of_size_small by exact F. apply fmt_d_decimal. exact F.
Qed.
Print Assumptions npy_dump_partial.

(** An array without dimensions is never printed: the entry before the first dimension is read. *)
Theorem npy_dump_scalar (m : npy) : np_ndim m = 0 -> npy_dump (Some m) = Fault OutOfBounds.
Proof. intros H. unfold npy_dump. rewrite H. reflexivity. Qed.
Print Assumptions npy_dump_scalar.

(** numpy.save of the float 0.0 *)
Definition scalar_text : list ascii := txt "{'descr': '<f4', 'fortran_order': False, 'shape': (), }" ++ repeat " "%char 62 ++ [newline].
Lemma scalar_describes : describes scalar_text "<" "f" 4 false [].
Proof.
  exists (txt "4"), [], (txt ", }" ++ repeat " "%char 62 ++ [newline]). split; [reflexivity|].
  split. { left. split; [lia|]. split; [discriminate|reflexivity]. }
  split; [constructor; constructor|]. split; [left; reflexivity|]. split; [discriminate|]. repeat (constructor; [discriminate|]). constructor.
Qed.
Theorem npy_dump_refuted : exists text data m,
  describes text "<" "f" 4 false [] /\ npy_load (fun _ => true) (npy_file "000" text data) = Ok (Some m) /\
  npy_dump (Some m) = Fault OutOfBounds.
Proof.
  exists scalar_text, (repeat "000"%char 4). eexists. split; [exact scalar_describes|]. split; [vm_compute; reflexivity|]. reflexivity.
Qed.
Print Assumptions npy_dump_refuted.
Example npy_dump_ex : npy_dump (Some ex_array)
  = Ok (dump_text (txt "2") [txt "2"; txt "3"] "f" (txt "4") false).
Proof. vm_compute. reflexivity. Qed.
(** a dimension of 2^31 is printed as a negative number *)
Example npy_dump_large : npy_dump (Some (mk_npy [] [2147483648; 0; 0; 0; 0; 0; 0; 0]%Z 1 "<" "f" 4 false true))
  = Ok (dump_text (txt "1") [txt "-2147483648"] "f" (txt "4") false).
Proof. vm_compute. reflexivity. Qed.

(** ** C85: unmapping *)
Lemma pages_n n k : pages_for n k -> n_pages n = k.
Proof. intros H. unfold n_pages, pages_for in *. symmetry. apply Z.div_unique with (r := (n + 4095 - 4096 * k)%Z); lia. Qed.
Lemma in_pages_iff p n k q : pages_for n k -> in_pages p n q = true <-> (p <= q < p + k)%Z.
Proof. intros H. unfold in_pages. rewrite (pages_n n k H), andb_true_iff, Z.leb_le, Z.ltb_lt. reflexivity. Qed.
Lemma map_in p n k s q : pages_for n k -> (p <= q < p + k)%Z -> map_pages p n s q = true.
Proof. intros H I. unfold map_pages. rewrite (proj2 (in_pages_iff p n k q H) I). reflexivity. Qed.
Lemma map_out p n k s q : pages_for n k -> ~ (p <= q < p + k)%Z -> map_pages p n s q = s q.
Proof. intros H I. unfold map_pages. destruct (in_pages p n q) eqn:E; [|reflexivity]. apply (in_pages_iff p n k q H) in E. contradiction. Qed.
Lemma munmap_in p n k s q : pages_for n k -> (0 < n)%Z -> (p + k <= page_limit)%Z -> (p <= q < p + k)%Z -> munmap p n s q = false.
Proof.
  intros H P L I. unfold munmap. rewrite (pages_n n k H). destruct (Z.leb_spec n 0); [lia|]. unfold page_limit, last_page in *.
  destruct (Z.ltb_spec 34359738368 (p + k)); [lia|]. cbn [orb]. rewrite (proj2 (in_pages_iff p n k q H) I). reflexivity.
Qed.
Lemma munmap_out p n k s q : pages_for n k -> ~ (p <= q < p + k)%Z -> munmap p n s q = s q.
Proof.
  intros H I. unfold munmap. destruct (_ || _); [reflexivity|]. destruct (in_pages p n q) eqn:E; [|reflexivity].
  apply (in_pages_iff p n k q H) in E. contradiction.
Qed.
Lemma munmap_far p n k s q : pages_for n k -> (page_limit < p + k)%Z -> munmap p n s q = s q.
Proof.
  intros H I. unfold munmap. rewrite (pages_n n k H). unfold page_limit, last_page in *. destruct (Z.ltb_spec 34359738368 (p + k)); [|lia].
  rewrite orb_true_r. reflexivity.
Qed.

(** dimensions up to the first zero *)
Lemma datasize_prefix m dims1 rest : np_shape m = dims1 ++ 0%Z :: rest -> positive dims1 -> length dims1 <= np_ndim m ->
  (0 < np_elem m)%Z -> (product dims1 * np_elem m < size_max1)%Z -> npy_datasize m = Ok (product dims1 * np_elem m)%Z.
Proof.
  intros HS HP HN He HB. pose proof (product_pos _ HP) as PP.
  assert (G : forall d2 d1 n fuel, dims1 = d1 ++ d2 -> length d2 < fuel -> (0 < n)%Z -> (n * product d2 < size_max1)%Z ->
     datasize_from fuel m (length d1) n = Ok (n * product d2)%Z).
  { induction d2 as [|d d2 IH]; intros d1 n fuel E HF Hn HB'; (destruct fuel as [|f]; [cbn in HF; lia|]); cbn [datasize_from]; rewrite HS, E.
    - rewrite app_nil_r, nth_error_app2, Nat.sub_diag by lia. cbn. f_equal. lia.
    - rewrite <- app_assoc, nth_error_app2, Nat.sub_diag by lia. cbn [app nth_error].
      assert (P2 : positive (d :: d2)). { rewrite E in HP. apply Forall_app in HP. apply HP. }
      inversion P2 as [|? ? Hd P3]; subst. pose proof (product_pos _ P3) as Q. rewrite product_cons in *.
      destruct (Z.ltb_spec 0 d); [|lia]. destruct (Nat.ltb_spec (length d1) (np_ndim m)) as [_|C]; [|rewrite app_length in HN; cbn in HN; lia].
      cbn [andb]. rewrite to_size_small by nia. replace (S (length d1)) with (length (d1 ++ [d])) by (rewrite app_length; cbn; lia).
      rewrite IH; [f_equal; ring|rewrite <- app_assoc; reflexivity|cbn in HF; lia|nia|nia]. }
  unfold npy_datasize. rewrite (G dims1 [] 1%Z); [|reflexivity|rewrite HS, app_length; cbn; lia|lia|nia].
  cbn [rbind]. rewrite Z.mul_1_l, to_size_small by nia. reflexivity.
Qed.

Lemma free_at_eq minor text data m p s d : length text mod 256 < 128 -> length text / 256 < 128 -> np_mapped m = true -> npy_datasize m = Ok d ->
  (0 <= d)%Z -> (10 + Z.of_nat (length text) + d < size_max1)%Z ->
  npy_free_at (npy_file minor text data) m p s = Ok (munmap p (10 + Z.of_nat (length text) + d) s).
Proof.
  intros H1 H2 HM HD H0 HB. unfold npy_free_at. rewrite HM.
  assert (A : pre_at (npy_file minor text data) 8 = Ok (ascii_of_nat (length text mod 256))) by reflexivity.
  assert (B : pre_at (npy_file minor text data) 9 = Ok (ascii_of_nat (length text / 256))) by reflexivity.
  rewrite A, B. cbn [rbind]. rewrite header_length_ok by assumption. cbn [rbind]. rewrite HD. cbn [rbind]. rewrite to_size_small by lia. reflexivity.
Qed.

(** What npy_array_free does with a mapped file, exactly.  It unmaps the pages for the header and the dimensions before the
    first zero.  Everything is as before iff these contain the mapped ones, all further ones were free, and the range does not
    pass the end of the user addresses. *)
Theorem mapped_free_exact (alloc : Z -> bool) minor text data e t es fo dims1 rest p k kn (s : Z -> bool) :
  describes text e t es fo (dims1 ++ rest) -> (0 < es)%Z -> length (dims1 ++ rest) <= 7 -> positive dims1 ->
  (rest = [] \/ hd 1%Z rest = 0%Z) -> Forall (fun d => (d < 9223372036854775808)%Z) rest ->
  (product dims1 * es < 9223372036854775808)%Z -> length text mod 256 < 128 -> length text / 256 < 128 -> alloc 104%Z = true ->
  pages_for (Z.of_nat (length (npy_file minor text data))) k -> unused s p k ->
  pages_for (10 + Z.of_nat (length text) + product dims1 * es) kn ->
  exists m s1 s2, npy_mmap_at alloc (npy_file minor text data) p s = Ok (Some m, s1) /\
    npy_free_at (npy_file minor text data) m p s1 = Ok s2 /\
    (same_pages s2 s <-> (p + kn <= page_limit /\ k <= kn)%Z /\ unused s (p + k) (kn - k)).
Proof.
  intros HD He HN HP HR HF HB H1 H2 HA HK HU HKN. pose proof (product_pos _ HP) as PP.
  set (file := npy_file minor text data) in *. set (m := mk_npy data ((dims1 ++ rest) ++ repeat 0%Z (8 - length (dims1 ++ rest))) (length (dims1 ++ rest)) e t es fo true).
  set (s1 := map_pages p (Z.of_nat (length file)) s). set (n := (10 + Z.of_nat (length text) + product dims1 * es)%Z) in *.
  exists m, s1, (munmap p n s1).
  assert (TL : (Z.of_nat (length text) < 32768)%Z).
  { pose proof (Nat.div_mod (length text) 256 ltac:(lia)). lia. }
  split.
  { unfold npy_mmap_at. destruct file as [|c f] eqn:EF; [discriminate EF|]. rewrite <- EF. unfold file at 1.
    rewrite (read_body alloc true _ _ _ _ _ _ _ _ HD); try assumption; try lia; try nia.
    - unfold sizeof_npy. rewrite HA. cbn [negb rbind]. unfold s1. rewrite <- EF. reflexivity.
    - apply Forall_app. split; [apply product_bound; [exact HP|nia]|exact HF]. }
  assert (DS : npy_datasize m = Ok (product dims1 * es)%Z).
  { assert (exists r, np_shape m = dims1 ++ 0%Z :: r) as (r & ER).
    { unfold m. cbn [np_shape]. destruct HR as [-> |HR].
      - rewrite app_nil_r in *. destruct (8 - length dims1) as [|z] eqn:E8; [lia|]. exists (repeat 0%Z z). reflexivity.
      - destruct rest as [|d r]; cbn [hd] in HR; [discriminate|]. subst d. eexists. rewrite <- app_assoc. reflexivity. }
    apply (datasize_prefix m dims1 r ER HP); [unfold m; cbn [np_ndim]; rewrite app_length; lia|exact He|]. unfold m, size_max1. cbn [np_elem]. lia. }
  split. { unfold file. apply free_at_eq; try assumption; try reflexivity; [nia|unfold size_max1; lia]. }
  assert (K1 : (1 <= k)%Z). { unfold pages_for in HK. unfold file in HK. rewrite npy_file_len in HK. lia. }
  assert (N0 : (0 < n)%Z) by (unfold n; nia).
  assert (K2 : (1 <= kn)%Z) by (unfold pages_for in HKN; lia).
  split.
  - intros S. destruct (Z.le_gt_cases (p + kn) page_limit) as [L|L].
    + assert (KK : (k <= kn)%Z).
      { destruct (Z.le_gt_cases k kn) as [|G]; [assumption|]. specialize (S (p + kn)%Z). rewrite (munmap_out p n kn) in S by (try assumption; lia).
        unfold s1 in S. rewrite (map_in p _ k) in S by (try assumption; lia). rewrite (HU (p + kn)%Z ltac:(lia)) in S. discriminate. }
      split; [split; assumption|]. intros q Hq. rewrite <- (S q). apply (munmap_in p n kn); try assumption; lia.
    + exfalso. specialize (S p). rewrite (munmap_far p n kn) in S by assumption. unfold s1 in S. rewrite (map_in p _ k) in S by (try assumption; lia).
      rewrite (HU p ltac:(lia)) in S. discriminate.
  - intros ((L & KK) & U2) q. destruct (Z.le_gt_cases p q) as [A|A]; [destruct (Z.lt_ge_cases q (p + kn)) as [B|B]|].
    + rewrite (munmap_in p n kn) by (try assumption; lia). symmetry. destruct (Z.lt_ge_cases q (p + k)); [apply HU; lia|apply U2; lia].
    + rewrite (munmap_out p n kn) by (try assumption; lia). unfold s1. apply (map_out p _ k); [assumption|lia].
    + rewrite (munmap_out p n kn) by (try assumption; lia). unfold s1. apply (map_out p _ k); [assumption|lia].
Qed.
Print Assumptions mapped_free_exact.

(** Files written by npy_array_save: npy_array_mmap adds the pages of the file, npy_array_free takes the same pages away. *)
Theorem mapped_free_partial (alloc : Z -> bool) (m : npy) file p k (s : Z -> bool) :
  storable m -> npy_save m = Ok file -> alloc 104%Z = true ->
  pages_for (Z.of_nat (length file)) k -> unused s p k -> (p + k <= page_limit)%Z ->
  exists m' s1 s2, npy_mmap_at alloc file p s = Ok (Some m', s1) /\
    (forall q, s1 q = true <-> (p <= q < p + k)%Z \/ s q = true) /\
    npy_free_at file m' p s1 = Ok s2 /\ same_pages s2 s.
Proof.
  intros HS HE HA HK HU HL. pose proof (storable_positive m HS) as HP. pose proof (stored_len m HS) as SL.
  pose proof (header_describes m HS) as HD. destruct (save_eq m HS) as (E1 & E2).
  assert (EF : file = npy_file "000" (header_text m (shape_bytes (stored_dims m))) (np_data m)) by congruence.
  destruct HS as (A & B & C & D & E & F & G). subst file.
  assert (HD2 : describes (header_text m (shape_bytes (stored_dims m))) (guess_endianness m) (np_type m) (np_elem m) (np_fortran m) (stored_dims m ++ [])).
  { rewrite app_nil_r. exact HD. }
  assert (KN : pages_for (10 + Z.of_nat (length (header_text m (shape_bytes (stored_dims m)))) + product (stored_dims m) * np_elem m) k).
  { rewrite npy_file_len in HK. unfold pages_for in *. lia. }
  destruct (mapped_free_exact alloc "000" _ (np_data m) _ _ _ _ (stored_dims m) [] p k k s HD2) as (m' & s1 & s2 & Q1 & Q2 & Q3); try assumption.
  { rewrite app_nil_r. lia. } { left. reflexivity. } { constructor. } { rewrite E2. vm_compute. lia. } { rewrite E2. vm_compute. lia. }
  exists m', s1, s2. split; [exact Q1|]. split.
  - intros q. unfold npy_mmap_at in Q1. destruct (npy_file "000" _ _) as [|c f] eqn:EQ; [discriminate EQ|].
    destruct (read_matrix alloc true (c :: f)) as [[x|]|] eqn:R; cbn [rbind] in Q1; try discriminate Q1. injection Q1 as _ <-.
    destruct (Z.le_gt_cases p q) as [I|I]; [destruct (Z.lt_ge_cases q (p + k)) as [J|J]|].
    + rewrite (map_in p _ k) by (try assumption; lia). split; [intros _; left; lia|reflexivity].
    + rewrite (map_out p _ k) by (try assumption; lia). split; [intros T; right; exact T|intros [T|T]; [lia|exact T]].
    + rewrite (map_out p _ k) by (try assumption; lia). split; [intros T; right; exact T|intros [T|T]; [lia|exact T]].
  - split; [exact Q2|]. apply Q3. split; [split; lia|]. intros q Hq. lia.
Qed.
Print Assumptions mapped_free_partial.

(** When npy_array_mmap returns NULL, whatever the file, nothing stays mapped. *)
Theorem mmap_refused_clean (alloc : Z -> bool) content p k (s s1 : Z -> bool) :
  npy_mmap_at alloc content p s = Ok (None, s1) ->
  pages_for (Z.of_nat (length content)) k -> unused s p k -> (p + k <= page_limit)%Z -> same_pages s1 s.
Proof.
  intros H HK HU HL q. unfold npy_mmap_at in H. destruct content as [|c f] eqn:EC; [injection H as <-; reflexivity|]. rewrite <- EC in *.
  destruct (read_matrix alloc true content) as [[x|]|]; cbn [rbind] in H; try discriminate H. injection H as <-.
  assert (N0 : (0 < Z.of_nat (length content))%Z) by (rewrite EC; cbn [length]; lia).
  destruct (Z.le_gt_cases p q) as [I|I]; [destruct (Z.lt_ge_cases q (p + k)) as [J|J]|].
  - rewrite (munmap_in p _ k) by (try assumption; lia). symmetry. apply HU. lia.
  - rewrite (munmap_out p _ k), (map_out p _ k) by (try assumption; lia). reflexivity.
  - rewrite (munmap_out p _ k), (map_out p _ k) by (try assumption; lia). reflexivity.
Qed.
Print Assumptions mmap_refused_clean.

(** numpy.save of an array of shape (3000, 0): one page is mapped, three are unmapped *)
Definition empty_text : list ascii := txt "{'descr': '<f4', 'fortran_order': False, 'shape': (3000, 0), }" ++ repeat " "%char 55 ++ [newline].
Lemma empty_describes : describes empty_text "<" "f" 4 false [3000; 0]%Z.
Proof.
  exists (txt "4"), (txt "3000, 0"), (txt ", }" ++ repeat " "%char 55 ++ [newline]). split; [reflexivity|].
  split. { left. split; [lia|]. split; [discriminate|reflexivity]. }
  split.
  { apply (shape_dim 3000 [0%Z] [] (txt "3000") (txt ", 0")); [constructor|lia|left; split; [lia|split; [discriminate|reflexivity]]|cbv; lia|].
    apply (shape_dim 0 [] (txt ", ") (txt "0") []); [|lia|left; split; [lia|split; [discriminate|reflexivity]]|exact I|constructor; constructor].
    repeat constructor; try discriminate; cbv; lia. }
  split; [left; reflexivity|]. split; [discriminate|]. repeat (constructor; [discriminate|]). constructor.
Qed.
(** page 101 belongs to someone else *)
Definition ex_space (q : Z) : bool := (q =? 101)%Z.
Theorem mapped_free_refuted : exists text p (s : Z -> bool) m s1 s2,
  describes text "<" "f" 4 false [3000; 0]%Z /\ pages_for (Z.of_nat (length (npy_file "000" text []))) 1 /\ unused s p 1 /\
  npy_mmap_at (fun _ => true) (npy_file "000" text []) p s = Ok (Some m, s1) /\
  npy_free_at (npy_file "000" text []) m p s1 = Ok s2 /\ s (p + 1)%Z = true /\ s2 (p + 1)%Z = false.
Proof.
  exists empty_text, 100%Z, ex_space. do 3 eexists. split; [exact empty_describes|]. split; [vm_compute; split; congruence|].
  split. { intros q Hq. unfold ex_space. apply Z.eqb_neq. lia. }
  split; [unfold npy_mmap_at; vm_compute (read_matrix _ _ _); reflexivity|]. split.
  { apply (free_at_eq "000" empty_text [] _ 100 _ 12000); vm_compute; try reflexivity; try congruence; lia. }
  split; vm_compute; reflexivity.
Qed.
Print Assumptions mapped_free_refuted.

(** the hypotheses of the other theorems *)
Example mapped_free_partial_case : storable ex_array /\
  (exists file, npy_save ex_array = Ok file /\ pages_for (Z.of_nat (length file)) 1) /\ unused ex_space 100 1 /\ (100 + 1 <= page_limit)%Z.
Proof.
  split; [exact ex_storable|]. split. { eexists. split; [vm_compute; reflexivity|]. vm_compute. split; congruence. }
  split; [|vm_compute; congruence]. intros q Hq. unfold ex_space. apply Z.eqb_neq. lia.
Qed.
(** 3996 bytes behind the data: the second page stays mapped *)
Example mapped_free_exact_case : exists text data m s1 s2,
  describes text "<" "f" 4 false [] /\ npy_mmap_at (fun _ => true) (npy_file "000" text data) 200 ex_space = Ok (Some m, s1) /\
  npy_free_at (npy_file "000" text data) m 200 s1 = Ok s2 /\ ~ same_pages s2 ex_space.
Proof.
  destruct (mapped_free_exact (fun _ => true) "000" scalar_text (repeat "000"%char 4000) "<" "f" 4 false [] [] 200 2 1 ex_space) as (m & s1 & s2 & A & B & C);
    try reflexivity.
  - exact scalar_describes.
  - cbn. lia.
  - constructor.
  - left. reflexivity.
  - constructor.
  - vm_compute. lia.
  - vm_compute. lia.
  - rewrite npy_file_len, repeat_length. vm_compute. split; congruence.
  - intros q Hq. unfold ex_space. apply Z.eqb_neq. lia.
  - vm_compute. split; congruence.
  - exists scalar_text, (repeat "000"%char 4000), m, s1, s2. split; [exact scalar_describes|]. split; [exact A|]. split; [exact B|].
    intros S. apply C in S. lia.
Qed.
Example mmap_refused_case : exists s1, npy_mmap_at (fun _ => true) (txt "not an array") 100 ex_space = Ok (None, s1) /\
  pages_for (Z.of_nat (length (txt "not an array"))) 1 /\ unused ex_space 100 1.
Proof.
  eexists. split; [reflexivity|]. split; [vm_compute; split; congruence|]. intros q Hq. unfold ex_space. apply Z.eqb_neq. lia.
Qed.
