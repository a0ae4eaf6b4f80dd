(** Prop_NpySafe.v -- C71: reading the header of an arbitrary file. *)
From Coq Require Import ZArith Bool String Ascii List Lia.
From Verif Require Import Base BaseProofs Logger SpecLog LoggerProofs Npy SpecNpy NpyProofs NpyProofs2 Prop_Npy2.
Import ListNotations.
Local Open Scope nat_scope.

(** the length of the header text that the two bytes stand for; the low byte is a signed char in the C code, so from 128 on
    it is not the length that was written (C42) *)
Definition text_length (low high : ascii) : Z :=
  if nat_of_ascii low <? 128 then Z.of_nat (nat_of_ascii low + 256 * nat_of_ascii high) else (65280 + Z.of_nat (nat_of_ascii low))%Z.

(** there is a closing parenthesis behind the last quote, and something behind it *)
Definition closed (text : list ascii) : Prop := exists u v, text = u ++ ")"%char :: v /\ v <> [] /\ ~ In "'"%char v.

(** ** lemmas *)
Lemma cstr_prefix s : exists p q, s ++ [nul] = p ++ q /\ cstr (s ++ [nul]) = Some p.
Proof.
  induction s as [|c s (p & q & E & C)]; [exists [], [nul]; split; reflexivity|]. cbn [app cstr].
  destruct (Ascii.eqb_spec c nul) as [->|N]; [exists [], (nul :: s ++ [nul]); split; reflexivity|].
  exists (c :: p), q. rewrite E. split; [reflexivity|]. rewrite <- E, C. reflexivity.
Qed.
Lemma prefix_split p : forall s, is_prefix p s = true -> exists b, s = p ++ b.
Proof.
  induction p as [|a p IH]; intros [|c s] H; cbn in H; try discriminate; [exists []; reflexivity|exists (c :: s); reflexivity|].
  destruct (Ascii.eqb_spec a c) as [->|]; [|discriminate]. destruct (IH _ H) as (b & ->). exists b. reflexivity.
Qed.
Lemma strstr_split p : forall s k, strstr s p = Some k -> exists a b, s = a ++ p ++ b /\ length a = k.
Proof.
  induction s as [|c s IH]; intros k H; cbn [strstr] in H.
  - destruct (is_prefix p []) eqn:E; [|discriminate]. injection H as <-. destruct (prefix_split _ _ E) as (b & Eb). exists [], b. split; [exact Eb|reflexivity].
  - destruct (is_prefix p (c :: s)) eqn:E.
    + injection H as <-. destruct (prefix_split _ _ E) as (b & Eb). exists [], b. split; [exact Eb|reflexivity].
    + destruct (strstr s p) as [j|] eqn:Ej; [|discriminate]. injection H as <-. destruct (IH j eq_refl) as (a & b & Es & L).
      exists (c :: a), b. rewrite Es. split; [reflexivity|]. cbn. rewrite L. reflexivity.
Qed.

(** an item that is found ends before the parenthesis: it contains a quote and, before it, no parenthesis *)
Lemma item_before item : ~ In ")"%char (chars item) -> In "'"%char (chars item) ->
  forall u v a b, u ++ ")"%char :: v = a ++ chars item ++ b -> ~ In "'"%char v -> length a + String.length item <= length u.
Proof.
  intros NP Q u v a b E NQ. destruct (Nat.le_gt_cases (length a + String.length item) (length u)) as [|G]; [assumption|exfalso].
  assert (LI : length (chars item) = String.length item).
  { unfold chars. clear. induction item as [|c s IH]; [reflexivity|]. cbn. rewrite IH. reflexivity. }
  assert (N1 : nth_error (u ++ ")"%char :: v) (length u) = Some ")"%char) by (rewrite nth_error_app2, Nat.sub_diag by lia; reflexivity).
  destruct (Nat.le_gt_cases (length a) (length u)) as [L|L].
  - rewrite E, nth_error_app2, nth_error_app1 in N1 by lia. apply nth_error_In in N1. exact (NP N1).
  - apply In_nth_error in Q. destruct Q as (i & Hi). assert (B : i < length (chars item)) by (apply nth_error_Some; congruence).
    assert (N2 : nth_error (u ++ ")"%char :: v) (length a + i) = Some "'"%char).
    { rewrite E, nth_error_app2 by lia. replace (length a + i - length a) with i by lia. rewrite nth_error_app1 by lia. exact Hi. }
    rewrite nth_error_app2 in N2 by lia. destruct (length a + i - length u) as [|j] eqn:EJ; [lia|]. cbn in N2. apply NQ. apply (nth_error_In v j). exact N2.
Qed.

Lemma find_item item text : ~ In ")"%char (chars item) -> In "'"%char (chars item) -> closed text ->
  find_header_item item (text ++ [nul]) = Ok None \/
  exists d, find_header_item item (text ++ [nul]) = Ok (Some d) /\ d + 2 <= length text /\ In ")"%char (skipn d (text ++ [nul])).
Proof.
  intros NP Q (u & v & -> & NE & NQ). unfold find_header_item. destruct (cstr_prefix (u ++ ")"%char :: v)) as (p & q & E & ->).
  destruct (strstr p (chars item)) as [k|] eqn:S1; [right|left; reflexivity]. destruct (strstr_split _ _ _ S1) as (a & b & -> & LA).
  assert (B : length a + String.length item <= length u).
  { rewrite <- app_assoc in E. cbn [app] in E. eapply (item_before item NP Q u (v ++ [nul])). 
    - etransitivity; [exact E|]. rewrite <- !app_assoc. reflexivity.
    - intros I. apply in_app_or in I. destruct I as [I|[I|[]]]; [exact (NQ I)|discriminate]. }
  exists (k + String.length item). split; [reflexivity|]. rewrite app_length. cbn [length]. split; [destruct v; [congruence|cbn [length]; lia]|].
  rewrite <- app_assoc. rewrite skipn_app. apply in_or_app. right. replace (k + String.length item - length u) with 0 by lia. left. reflexivity.
Qed.

Lemma digits_skip s : forall x, digit_of x = None -> In x s -> In x (skipn (length (take_digits s)) s).
Proof.
  induction s as [|c s IH]; intros x D H; [exact H|]. cbn [take_digits]. destruct (digit_of c) eqn:E; [|exact H].
  cbn [length skipn]. apply IH; [exact D|]. destruct H as [->|H]; [congruence|exact H].
Qed.
Lemma scan_shape_safe f : forall s dims, length s < f -> In ")"%char s ->
  (exists r, scan_shape f s dims = Ok r) \/ scan_shape f s dims = Fault AssertFailed.
Proof.
  induction f as [|f IH]; intros s dims L H; [lia|]. cbn [scan_shape]. destruct s as [|c s]; [destruct H|].
  destruct (Ascii.eqb_spec c ")") as [->|N]; [left; eexists; reflexivity|]. destruct H as [->|H]; [congruence|]. cbn [length] in L.
  destruct (digit_of c) as [dg|] eqn:E; [|apply IH; [lia|exact H]]. cbv zeta.
  destruct (_ <? max_dims); [|right; reflexivity]. apply IH.
  - rewrite skipn_length. cbn [take_digits]. rewrite E. cbn [length]. lia.
  - apply digits_skip; [reflexivity|right; exact H].
Qed.

Lemma parse_safe text : closed text ->
  (exists r, parse_header (text ++ [nul]) = Ok r) \/ parse_header (text ++ [nul]) = Fault AssertFailed.
Proof.
  intros C. unfold parse_header.
  destruct (find_item "'descr': '" text) as [->|(d & -> & LD & _)]; [intros I; vm_compute in I; intuition discriminate|vm_compute; tauto|exact C|right; reflexivity|].
  cbn [rbind]. assert (CH : forall i, i <= length text -> exists c, char_at (text ++ [nul]) i = Ok c).
  { intros i Hi. unfold char_at. destruct (nth_error (text ++ [nul]) i) as [c|] eqn:E; [exists c; reflexivity|].
    apply nth_error_None in E. rewrite app_length in E. cbn in E. lia. }
  destruct (CH d ltac:(lia)) as (e & ->). destruct (CH (d + 1) ltac:(lia)) as (t & ->). cbn [rbind].
  assert (SK : exists w, cstr (skipn (d + 2) (text ++ [nul])) = Some w).
  { rewrite skipn_app. replace (d + 2 - length text) with 0 by lia. destruct (cstr_prefix (skipn (d + 2) text)) as (w & q & _ & E). exists w. exact E. }
  destruct SK as (w & ->). destruct (_ =? 0)%Z; [right; reflexivity|].
  destruct (find_item "'fortran_order': " text) as [->|(f & -> & _ & _)]; [intros I; vm_compute in I; intuition discriminate|vm_compute; tauto|exact C|right; reflexivity|].
  cbn [rbind].
  destruct (find_item "'shape': " text) as [->|(p & -> & _ & IP)]; [intros I; vm_compute in I; intuition discriminate|vm_compute; tauto|exact C|right; reflexivity|].
  cbn [rbind].
  destruct (scan_shape_safe (S (length (text ++ [nul]))) (skipn p (text ++ [nul])) []) as [(r & ->)| ->];
    [rewrite skipn_length; lia|exact IP|left; eexists; reflexivity|right; reflexivity].
Qed.

Lemma header_length_value low high : nat_of_ascii high < 128 -> header_length low high = Ok (text_length low high).
Proof.
  intros H. unfold header_length, text_length, schar. cbv zeta. pose proof (nat_ascii_bounded low) as BL.
  set (h := nat_of_ascii high) in *. set (l := nat_of_ascii low) in *.
  destruct (Z.ltb_spec (Z.of_nat h) 128); [|lia]. destruct (Z.ltb_spec (Z.of_nat h) 0); [lia|]. f_equal.
  destruct (Nat.ltb_spec l 128); destruct (Z.ltb_spec (Z.of_nat l) 128); try lia.
  - rewrite (Z.mod_small (Z.of_nat l)) by lia. rewrite lor_bytes by lia. rewrite Z.mod_small by lia. lia.
  - assert (MA : ((Z.of_nat l - 256) mod 65536 = Z.of_nat l + 255 * 256)%Z).
    { symmetry. apply Z.mod_unique with (q := (-1)%Z); [left; lia|lia]. }
    rewrite MA.
    assert (LA : (Z.lor (Z.of_nat l + 255 * 256) (Z.of_nat h * 256) = Z.of_nat l + 255 * 256)%Z).
    { rewrite <- lor_bytes by lia. rewrite <- Z.lor_assoc. f_equal. change 256%Z with (2 ^ 8)%Z. rewrite <- !Z.shiftl_mul_pow2 by lia.
      rewrite <- Z.shiftl_lor. f_equal. assert (B : (0 <= Z.of_nat h < 2 ^ 8)%Z) by (change (2 ^ 8)%Z with 256%Z; lia).
      apply Z.bits_inj'. intros n Hn. rewrite Z.lor_spec. change 255%Z with (Z.ones 8). destruct (Z.ltb_spec n 8).
      - rewrite Z.ones_spec_low by lia. reflexivity.
      - rewrite Z.ones_spec_high by lia. cbn [orb]. destruct (Z.eq_dec (Z.of_nat h) 0) as [-> |NZ]; [apply Z.bits_0|].
        apply Z.bits_above_log2; [lia|]. assert (Z.log2 (Z.of_nat h) < 8)%Z by (apply Z.log2_lt_pow2; lia). lia. }
    rewrite LA. rewrite Z.mod_small by lia. lia.
Qed.

(** ** C71 *)
(** whatever the file is: nothing behind the header buffer is read if each header text is closed; the outcome is an array, NULL
    or an assertion that fails *)
Definition no_memory_error {A} (r : res A) : Prop := (exists x, r = Ok x) \/ r = Fault AssertFailed.

Theorem npy_load_safe_partial (alloc : Z -> bool) content :
  (forall minor low high rest, content = npy_magic ++ ["001"%char; minor; low; high] ++ rest -> nat_of_ascii high < 128) ->
  (forall minor low high text rest, content = npy_magic ++ ["001"%char; minor; low; high] ++ text ++ rest ->
    Z.of_nat (length text) = text_length low high -> closed text) ->
  no_memory_error (npy_load alloc content).
Proof.
  intros HH HC. destruct (Nat.lt_ge_cases (length content) 10) as [L|L].
  { left. exists None. apply npy_load_refuses. left. exact L. }
  destruct (list_eq_dec ascii_dec (firstn 7 content) (npy_magic ++ ["001"%char])) as [E|N].
  2:{ left. exists None. apply npy_load_refuses. right. intros (r & ->). apply N. reflexivity. }
  assert (EC : exists minor low high rest, content = npy_magic ++ ["001"%char; minor; low; high] ++ rest).
  { rewrite <- (firstn_skipn 7 content), E. assert (L7 : 3 <= length (skipn 7 content)) by (rewrite skipn_length; lia).
    destruct (skipn 7 content) as [|a [|b [|c r]]]; cbn in L7; try lia. exists a, b, c, r. rewrite <- app_assoc. reflexivity. }
  destruct EC as (minor & low & high & rest & EC). specialize (HH _ _ _ _ EC).
  pose proof (fun text r X => HC minor low high text r (eq_trans EC X)) as HC'. clear HC.
  rewrite EC. unfold npy_load. change (npy_magic ++ ["001"%char; minor; low; high] ++ rest) with (npy_magic ++ ["001"%char; minor] ++ [low; high] ++ rest).
  rewrite read_step, header_length_value by exact HH. cbn [rbind].
  set (n := Z.to_nat (text_length low high)).
  destruct (Nat.ltb_spec (length (firstn n rest)) n) as [|LN]; [left; eexists; reflexivity|].
  assert (TL : (0 <= text_length low high)%Z) by (unfold text_length; destruct (_ <? _); lia).
  assert (CL : closed (firstn n rest)).
  { apply (HC' _ (skipn n rest)); [rewrite firstn_skipn; reflexivity|]. rewrite firstn_length in *. unfold n in *. lia. }
  destruct (alloc sizeof_npy); [|left; eexists; reflexivity]. cbn [negb].
  destruct (parse_safe _ CL) as [([[[[e t] es] fo] dims] & ->)| ->]; [|right; reflexivity]. cbn [rbind].
  left. destruct (negb _); [eexists; reflexivity|]. destruct (_ <=? _)%Z; eexists; reflexivity.
Qed.
Print Assumptions npy_load_safe_partial.

(** the same of a file that is mapped, if it is not shorter than its header *)
Theorem npy_mmap_safe_partial (alloc : Z -> bool) minor low high text rest :
  let content := npy_magic ++ ["001"%char; minor; low; high] ++ text ++ rest in
  nat_of_ascii high < 128 -> Z.of_nat (length text) = text_length low high -> closed text ->
  no_memory_error (npy_mmap alloc content).
Proof.
  intros content HH HL CL. unfold content, npy_mmap.
  change (npy_magic ++ ["001"%char; minor; low; high] ++ text ++ rest) with (npy_magic ++ ["001"%char; minor] ++ [low; high] ++ text ++ rest).
  change (no_memory_error (read_matrix alloc true (npy_magic ++ ["001"%char; minor] ++ [low; high] ++ text ++ rest))).
  rewrite read_step, header_length_value by exact HH. cbn [rbind]. rewrite <- HL, Nat2Z.id.
  rewrite firstn_app, firstn_all, Nat.sub_diag. cbn [firstn]. rewrite app_nil_r, Nat.ltb_irrefl.
  destruct (alloc sizeof_npy); [|left; eexists; reflexivity]. cbn [negb].
  destruct (parse_safe _ CL) as [([[[[e t] es] fo] dims] & ->)| ->]; [|right; reflexivity]. left. eexists. reflexivity.
Qed.
Print Assumptions npy_mmap_safe_partial.

(** REFUTED without the parenthesis: the reader runs out of the header; and if the text ends behind the word descr *)
Definition open_text : list ascii := txt "{'descr': '<f4', 'fortran_order': False, 'shape': (2, 3, }" ++ [newline].
Definition short_text : list ascii := txt "{'descr': '".
Theorem npy_load_safe_refuted :
  npy_load (fun _ => true) (npy_file "000" open_text (repeat "A"%char 24)) = Fault OutOfBounds
  /\ npy_load (fun _ => true) (npy_file "000" short_text []) = Fault OutOfBounds.
Proof. split; vm_compute; reflexivity. Qed.
Print Assumptions npy_load_safe_refuted.

(** the hypotheses hold of garbage, and of each text that numpy writes *)
Example closed_garbage : closed (txt "x'y'((0)z") /\ ~ closed open_text.
Proof.
  split.
  - exists (txt "x'y'((0"), (txt "z"). split; [reflexivity|]. split; [discriminate|]. intros [H|[]]. discriminate.
  - intros (u & v & E & _ & _). assert (I : In ")"%char open_text) by (rewrite E; apply in_or_app; right; left; reflexivity).
    vm_compute in I. repeat (destruct I as [I|I]; [discriminate|]). exact I.
Qed.
Example closed_described text e t es fo dims : describes text e t es fo dims ->
  (exists b, text = b ++ txt "), }" \/ text = b ++ txt "), }" ++ [newline]) -> closed text.
Proof.
  intros _ (b & [->| ->]); (eexists b, _; split; [reflexivity|]; split; [discriminate|]; cbn; intuition discriminate).
Qed.
Example npy_safe_case : let f := npy_file "000" (txt "{'descr': 'abc', 'shape': (1, 2)}") [] in
  (forall minor low high rest, f = npy_magic ++ ["001"%char; minor; low; high] ++ rest -> nat_of_ascii high < 128) /\
  (forall minor low high text rest, f = npy_magic ++ ["001"%char; minor; low; high] ++ text ++ rest ->
    Z.of_nat (length text) = text_length low high -> closed text) /\
  npy_load (fun _ => true) f = Fault AssertFailed.
Proof.
  cbv zeta. split; [|split; [|vm_compute; reflexivity]].
  - intros mi lo hi r E. cbn in E. injection E as <- <- <- _. vm_compute. lia.
  - intros mi lo hi t r E L. cbn in E. injection E as <- <- <- E. match type of L with _ = ?z => let w := eval vm_compute in z in change z with w in L end.
    exists (txt "{'descr': 'abc', 'shape': (1, 2"), (txt "}"). split; [|split; [discriminate|intros [H|[]]; discriminate]].
    assert (LT : length t = 33) by lia. apply (f_equal (firstn 33)) in E. rewrite <- LT in E at 2. rewrite firstn_app, firstn_all, Nat.sub_diag in E. cbn [firstn] in E. rewrite app_nil_r in E. rewrite <- E. reflexivity.
Qed.
