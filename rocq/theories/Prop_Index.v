(** Prop_Index.v -- C62: the integer arithmetic of training, evaluation and prediction *)
From Coq Require Import ZArith Bool List Lia Permutation.
From Verif Require Import Base Logger CreateProofs SpecCreate Prop_Create SpecIndex Index32.
Import ListNotations.
Local Open Scope Z_scope.

(** ** lemmas *)
Lemma collect_map {A B} (f : A -> res B) (g : A -> B) l : (forall a, In a l -> f a = Ok (g a)) -> collect f l = Ok (map g l).
Proof.
  induction l as [|a l IH]; intros H; [reflexivity|]. cbn [collect]. rewrite H by (left; reflexivity). cbn [rbind].
  rewrite IH by (intros; apply H; right; assumption). reflexivity.
Qed.
Lemma in_counter n k : In k (counter n) <-> 0 <= k < n.
Proof.
  unfold counter. rewrite in_map_iff. split.
  - intros (i & <- & H). apply in_seq in H. lia.
  - intros H. exists (Z.to_nat k). rewrite in_seq. lia.
Qed.
Lemma counter_len n : length (counter n) = Z.to_nat n. Proof. unfold counter. rewrite map_length, seq_length. reflexivity. Qed.
Lemma counter_neg n : n <= 0 -> counter n = [].
Proof. intros H. unfold counter. replace (Z.to_nat n) with O by lia. reflexivity. Qed.
Lemma wrap32_ok z : 0 <= z < 4294967296 -> wrap32 z = z. Proof. intros H. apply Z.mod_small. exact H. Qed.
Lemma int_small u : 0 <= u < 2147483648 -> int_of_unsigned u = u.
Proof. intros H. unfold int_of_unsigned. destruct (Z.ltb_spec u 2147483648); [reflexivity|lia]. Qed.

Lemma skipn_add {A} a b (l : list A) : skipn a (skipn b l) = skipn (b + a) l.
Proof. revert l. induction b as [|b IH]; intros l; [reflexivity|]. destruct l as [|x l]; [rewrite !skipn_nil; reflexivity|]. apply IH. Qed.

(** ** training *)
Section Train.
  Variable n_input n_output batchsize n : Z.
  Variable pivot : list Z.
  Hypothesis Hb : 1 <= batchsize < 2147483648.
  Hypothesis Hp : Z.of_nat (length pivot) = n.
  Hypothesis Hn : n < 2147483648.
  Hypothesis Hk : Forall (fun k => 0 <= k * n_input < 4294967296 /\ 0 <= k * n_output < 4294967296) pivot.

  Lemma batch_len_ok i : 0 <= i < n -> batch_len batchsize n i = Ok (Z.min (n - i) batchsize).
  Proof.
    intros H. unfold batch_len. rewrite !int_small by lia. rewrite to_int_ok by lia. cbn [rbind]. f_equal.
    destruct (Z.ltb_spec (n - i) batchsize); lia.
  Qed.
  Lemma train_row_ok i b d : 0 <= i -> 0 <= b -> i + b < n ->
    train_row n_input n_output pivot i b = Ok (nth (Z.to_nat b) (map (row_at n_input n_output) (skipn (Z.to_nat i) pivot)) d).
  Proof.
    intros Hi Hb' H. unfold train_row. rewrite wrap32_ok, int_small by lia. destruct (Z.ltb_spec (i + b) 0); [lia|].
    destruct (nth_error pivot (Z.to_nat (i + b))) as [k|] eqn:E; [|apply nth_error_None in E; lia].
    assert (IK : In k pivot) by (eapply nth_error_In; exact E).
    rewrite Forall_forall in Hk. destruct (Hk k IK). rewrite !wrap32_ok by assumption. f_equal.
    symmetry. apply nth_error_nth. rewrite nth_error_map.
    replace (nth_error (skipn (Z.to_nat i) pivot) (Z.to_nat b)) with (Some k); [reflexivity|].
    rewrite <- E. rewrite <- (firstn_skipn (Z.to_nat i) pivot) at 1. rewrite nth_error_app2 by (rewrite firstn_length; lia).
    f_equal. rewrite firstn_length. lia.
  Qed.
  Lemma rows_ok i len : 0 <= i -> 0 <= len -> i + len <= n ->
    collect (train_row n_input n_output pivot i) (counter len) = Ok (firstn (Z.to_nat len) (map (row_at n_input n_output) (skipn (Z.to_nat i) pivot))).
  Proof.
    intros Hi Hl H. set (l := map (row_at n_input n_output) (skipn (Z.to_nat i) pivot)).
    rewrite (collect_map _ (fun b => nth (Z.to_nat b) l (0, 0))).
    - f_equal. unfold counter. rewrite map_map. assert (LL : (Z.to_nat len <= length l)%nat) by (unfold l; rewrite map_length, skipn_length; lia).
      transitivity (map (fun x => nth x l (0, 0)) (seq 0 (Z.to_nat len))).
      + apply map_ext_in. intros x Hx. rewrite Nat2Z.id. reflexivity.
      + clearbody l. clear - LL. revert l LL. generalize (Z.to_nat len) as m. induction m as [|m IH]; intros l LL; [reflexivity|].
        destruct l as [|a l]; [cbn in LL; lia|]. cbn [seq map firstn nth]. f_equal. rewrite <- seq_shift, map_map. apply IH. cbn in LL. lia.
    - intros b Hb'. apply in_counter in Hb'. apply train_row_ok; lia.
  Qed.

  Lemma batches_from fuel : forall i, 0 <= i <= n -> (Z.to_nat (n - i) < fuel)%nat ->
    exists bs, train_rows n_input n_output batchsize n pivot fuel i = Ok bs /\
      are_batches batchsize (map (row_at n_input n_output) (skipn (Z.to_nat i) pivot)) bs.
  Proof.
    induction fuel as [|fuel IH]; intros i Hi Hf; [lia|]. cbn [train_rows]. destruct (Z.ltb_spec i n) as [L|L].
    - rewrite batch_len_ok by lia. cbn [rbind]. set (len := Z.min (n - i) batchsize). rewrite rows_ok by lia. cbn [rbind].
      rewrite wrap32_ok by lia. destruct (IH (i + len)) as (bs & E & C & F & R); [lia|lia|]. rewrite E. cbn [rbind]. eexists. split; [reflexivity|].
      set (l := map (row_at n_input n_output) (skipn (Z.to_nat i) pivot)) in *.
      assert (LL : length l = Z.to_nat (n - i)) by (unfold l; rewrite map_length, skipn_length; lia).
      assert (SK : map (row_at n_input n_output) (skipn (Z.to_nat (i + len)) pivot) = skipn (Z.to_nat len) l).
      { unfold l. rewrite skipn_map. f_equal. rewrite skipn_add. f_equal. lia. }
      rewrite SK in C. split; [|split].
      + cbn [map snd concat]. rewrite C. apply firstn_skipn.
      + constructor; [|exact F]. cbn [fst snd]. rewrite firstn_length, LL. lia.
      + destruct bs as [|b bs]; [constructor|]. change (removelast ((len, firstn (Z.to_nat len) l) :: b :: bs)) with ((len, firstn (Z.to_nat len) l) :: removelast (b :: bs)).
        constructor; [|exact R]. cbn [fst]. pose proof (Forall_inv F) as (F1 & F2).
        assert (0 < Z.of_nat (length (concat (map snd (b :: bs))))).
        { cbn [map concat]. rewrite app_length. lia. }
        rewrite C, skipn_length, LL in H. lia.
    - exists []. split; [reflexivity|]. replace (Z.to_nat i) with (length pivot) by lia. rewrite skipn_all. split; [reflexivity|]. split; constructor.
  Qed.
End Train.

(** Fewer than 2^31 samples, matrices of at most 2^32 floats: the batches consist of the rows of the sample order. *)
Theorem train_rows_partial n_input n_output batchsize n pivot fuel :
  0 < n_input -> 0 < n_output -> 1 <= batchsize < 2147483648 -> n < 2147483648 -> n * n_input <= 4294967296 -> n * n_output <= 4294967296 ->
  Permutation pivot (counter n) -> (Z.to_nat n < fuel)%nat ->
  exists bs, train_rows n_input n_output batchsize n pivot fuel 0 = Ok bs /\ are_batches batchsize (map (row_at n_input n_output) pivot) bs.
Proof.
  intros Hi Ho Hb Hn Ni No P Hf. pose proof (Permutation_length P) as L. rewrite counter_len in L.
  destruct (Z_lt_le_dec n 0) as [N|N].
  - assert (pivot = []) as -> by (destruct pivot; [reflexivity|cbn in L; lia]). destruct fuel; [lia|]. cbn [train_rows].
    destruct (Z.ltb_spec 0 n); [lia|]. exists []. split; [reflexivity|]. split; [reflexivity|]. split; constructor.
  - apply (batches_from n_input n_output batchsize n pivot Hb ltac:(lia) Hn); [|lia|lia].
    apply Forall_forall. intros k Hk. apply (Permutation_in k P) in Hk. apply in_counter in Hk. nia.
Qed.
Print Assumptions train_rows_partial.

(** 2^31 samples or more: one batch without samples, the gradient is divided by a negative number; no sample is used. *)
Theorem train_no_rows n_input n_output batchsize n pivot fuel :
  2147483648 <= n < 4294967296 -> 1 <= batchsize ->
  train_rows n_input n_output batchsize n pivot (S (S fuel)) 0 = Ok [(n - 4294967296, [])].
Proof.
  intros Hn Hb. cbn [train_rows]. destruct (Z.ltb_spec 0 n); [|lia].
  assert (E : batch_len batchsize n 0 = Ok (n - 4294967296)).
  { unfold batch_len. rewrite (int_small 0) by lia. unfold int_of_unsigned. destruct (Z.ltb_spec n 2147483648); [lia|].
    rewrite to_int_ok by lia. cbn [rbind]. destruct (Z.ltb_spec (n - 4294967296 - 0) batchsize); [|lia]. f_equal. lia. }
  rewrite E. cbn [rbind]. rewrite counter_neg by lia. cbn [collect rbind].
  assert (W : wrap32 (0 + (n - 4294967296)) = n).
  { unfold wrap32. replace (0 + (n - 4294967296)) with (n + (-1) * 4294967296) by lia. rewrite Z_mod_plus_full. apply Z.mod_small. lia. }
  rewrite W. rewrite Z.ltb_irrefl. reflexivity.
Qed.
Print Assumptions train_no_rows.

(** A row from 2^32 floats on is addressed 2^32 floats (or a multiple) too low. *)
Theorem train_row_wraps n_input n_output pivot i b k x y :
  0 <= i -> 0 <= b -> i + b < 2147483648 -> nth_error pivot (Z.to_nat (i + b)) = Some k ->
  train_row n_input n_output pivot i b = Ok (x, y) ->
  x = (k * n_input) mod 4294967296 /\ y = (k * n_output) mod 4294967296.
Proof.
  intros Hi Hb H E R. unfold train_row in R. rewrite wrap32_ok, int_small in R by lia. destruct (Z.ltb_spec (i + b) 0); [lia|].
  rewrite E in R. inversion R. split; reflexivity.
Qed.
Print Assumptions train_row_wraps.

(** REFUTED: 65537 samples of 65536 features, not shuffled: the last sample is taken to be the first one. *)
Theorem train_rows_refuted : exists n_input n_output n pivot i,
  0 < n_input /\ 0 < n_output /\ n < 2147483648 /\ Permutation pivot (counter n) /\ nth_error pivot (Z.to_nat i) = Some i /\ 0 <= i < n /\
  train_row n_input n_output pivot i 0 <> Ok (row_at n_input n_output i) /\
  exists y, train_row n_input n_output pivot i 0 = Ok (0, y).
Proof.
  exists 65536, 1, 65537, (counter 65537), 65536.
  assert (NE : nth_error (counter 65537) (Z.to_nat 65536) = Some 65536).
  { unfold counter. rewrite nth_error_map. rewrite (nth_error_nth' _ O) by (rewrite seq_length; lia). rewrite seq_nth by lia. cbn [option_map]. f_equal. }
  assert (TR : train_row 65536 1 (counter 65537) 65536 0 = Ok (0, 65536)).
  { unfold train_row. change (int_of_unsigned (wrap32 (65536 + 0))) with 65536. change (65536 <? 0) with false. cbv iota. rewrite NE. reflexivity. }
  split; [lia|]. split; [lia|]. split; [lia|]. split; [apply Permutation_refl|]. split; [exact NE|]. split; [lia|]. split.
  - rewrite TR. intros X. inversion X.
  - exists 65536. exact TR.
Qed.
Print Assumptions train_rows_refuted.

(** ** evaluation and prediction of many samples: exactly when the last row is addressed by an int *)
Theorem sample_rows_exact n_input n_output n :
  0 < n_input -> 0 < n_output -> 0 <= n < 2147483648 ->
  sample_rows n_input n_output n =
    if (Z.max n_input n_output * (n - 1) <? 2147483648) then Ok (map (row_at n_input n_output) (counter n)) else Fault IntOverflow.
Proof.
  intros Hi Ho Hn. unfold sample_rows. destruct (Z.ltb_spec (Z.max n_input n_output * (n - 1)) 2147483648) as [L|L].
  - apply collect_map. intros k Hk. apply in_counter in Hk. unfold sample_row. rewrite !to_int_ok by nia. reflexivity.
  - assert (G : forall l, (exists k, In k l /\ 2147483648 <= Z.max n_input n_output * k) -> (forall k, In k l -> 0 <= k) ->
        collect (sample_row n_input n_output) l = Fault IntOverflow).
    { induction l as [|a l IH]; intros (k & IN & G) P; [destruct IN|]. cbn [collect].
      destruct (Z_lt_le_dec (Z.max n_input n_output * a) 2147483648) as [A|A].
      - assert (0 <= a) by (apply P; left; reflexivity). unfold sample_row at 1. rewrite !to_int_ok by nia. cbn [rbind].
        rewrite IH; [reflexivity| |intros; apply P; right; assumption]. exists k. split; [|exact G]. destruct IN as [->|IN]; [lia|exact IN].
      - assert (0 <= a) by (apply P; left; reflexivity). unfold sample_row. destruct (Z_lt_le_dec (a * n_input) 2147483648) as [B|B].
        + rewrite to_int_ok by nia. cbn [rbind]. rewrite to_int_over by nia. reflexivity.
        + rewrite to_int_over by exact B. reflexivity. }
    apply G; [|intros k Hk; apply in_counter in Hk; lia]. exists (n - 1). split; [apply in_counter; nia|exact L].
Qed.
Print Assumptions sample_rows_exact.

(** 2^31 samples or more: evaluate looks at none of them. *)
Theorem evaluated_none n_input n_output n : 2147483648 <= n < 4294967296 -> evaluated_rows n_input n_output n = Ok [].
Proof.
  intros H. unfold evaluated_rows, sample_rows. rewrite counter_neg; [reflexivity|]. unfold int_of_unsigned. destruct (Z.ltb_spec n 2147483648); lia.
Qed.
Print Assumptions evaluated_none.

(** REFUTED: 32769 samples of 65536 features (8 GB) cannot be evaluated. *)
Theorem sample_rows_refuted : exists n_input n_output n, 0 < n_input /\ 0 < n_output /\ 0 <= n < 2147483648 /\
  evaluated_rows n_input n_output n = Fault IntOverflow.
Proof.
  exists 65536, 1, 32769. split; [lia|]. split; [lia|]. split; [lia|]. unfold evaluated_rows. rewrite int_small by lia. rewrite sample_rows_exact by lia.
  destruct (Z.ltb_spec (Z.max 65536 1 * (32769 - 1)) 2147483648); [lia|]. reflexivity.
Qed.
Print Assumptions sample_rows_refuted.

(** ** the BLAS version *)
Lemma sumZ_cons o outs : sumZ (o :: outs) = o + sumZ outs. Proof. reflexivity. Qed.
Lemma sumZ_pos outs : Forall (fun o => 0 < o) outs -> 0 <= sumZ outs.
Proof. intros F. induction F as [|o outs Ho F IH]; [unfold sumZ; cbn; lia|]. rewrite sumZ_cons. lia. Qed.
Lemma sum_int_ok outs : forall s, 0 <= s -> Forall (fun o => 0 < o) outs -> s + sumZ outs < 2147483648 -> sum_int outs s = Ok (s + sumZ outs).
Proof.
  induction outs as [|o outs IH]; intros s Hs F H; [cbn; f_equal; unfold sumZ; cbn; lia|]. cbn [sum_int]. pose proof (Forall_inv F) as Po. cbn beta in Po. apply Forall_inv_tail in F.
  pose proof (sumZ_pos outs F). rewrite sumZ_cons in H. rewrite to_int_ok by lia. cbn [rbind]. rewrite IH by (auto; lia).
  f_equal. rewrite sumZ_cons. lia.
Qed.
Lemma sum_int_over outs : forall s, 0 <= s < 2147483648 -> Forall (fun o => 0 < o) outs -> 2147483648 <= s + sumZ outs -> sum_int outs s = Fault IntOverflow.
Proof.
  induction outs as [|o outs IH]; intros s Hs F H; [unfold sumZ in H; cbn in H; lia|]. cbn [sum_int]. pose proof (Forall_inv F) as Po. cbn beta in Po. apply Forall_inv_tail in F.
  rewrite sumZ_cons in H. destruct (Z_lt_le_dec (s + o) 2147483648).
  - rewrite to_int_ok by lia. cbn [rbind]. apply IH; [lia|exact F|lia].
  - rewrite to_int_over by lia. reflexivity.
Qed.
Lemma blocks_app ni no p lim n m a b : forall k, blocks ni no p lim m k a -> blocks ni no p lim n m b -> blocks ni no p lim n k (a ++ b).
Proof.
  induction a as [|((x & y) & c) a IH]; intros k A B; cbn [blocks app] in *; [subst; exact B|].
  destruct A as (E1 & E2 & E3 & E4 & A). repeat split; auto.
Qed.
Theorem split_rows_partial nstack outs n_input n_output n fuel :
  Forall (fun o => 0 < o) outs -> 0 < n_input -> 0 < n_output -> 0 <= n -> sumZ outs <= nstack < 2147483648 ->
  sumZ outs * n < 2147483648 -> n * n_input < 2147483648 -> n * n_output < 2147483648 -> (Z.to_nat n < fuel)%nat ->
  exists l, split_rows nstack outs n_input n_output fuel n 0 0 = Ok l /\ blocks n_input n_output (sumZ outs) nstack n 0 l.
Proof.
  intros F Hi Ho Hn Hs Hw Ni No Hf.
  assert (G : forall fuel m k, 0 <= m -> 0 <= k -> k + m <= n -> (Z.to_nat m < fuel)%nat ->
    exists l, split_rows nstack outs n_input n_output fuel m (k * n_input) (k * n_output) = Ok l /\ blocks n_input n_output (sumZ outs) nstack (k + m) k l).
  { pose proof (sumZ_pos outs F) as SP. clear Hf fuel. induction fuel as [|fuel IH]; intros m k Hm Hk Hkm Hf; [lia|]. cbn [split_rows].
    rewrite sum_int_ok by (auto; lia). cbn [rbind]. rewrite Z.add_0_l. rewrite to_int_ok by nia. cbn [rbind].
    destruct (Z.ltb_spec nstack (sumZ outs * m)) as [L|L].
    - assert (M2 : 2 <= m) by nia. pose proof (Z.div_lt m 2 ltac:(lia) ltac:(lia)). pose proof (Z.div_str_pos m 2 ltac:(lia)).
      destruct (IH (m / 2) k) as (a & Ea & Ba); [lia|lia|lia|lia|]. rewrite Ea. cbn [rbind]. rewrite !to_int_ok by nia. cbn [rbind].
      replace (k * n_input + m / 2 * n_input) with ((k + m / 2) * n_input) by ring. replace (k * n_output + m / 2 * n_output) with ((k + m / 2) * n_output) by ring.
      destruct (IH (m - m / 2) (k + m / 2)) as (b & Eb & Bb); [lia|lia|lia|lia|]. rewrite Eb. cbn [rbind]. eexists. split; [reflexivity|].
      replace (k + m / 2 + (m - m / 2)) with (k + m) in Bb by lia. eapply blocks_app; eassumption.
    - eexists. split; [reflexivity|]. cbn [blocks]. repeat split; lia. }
  destruct (G fuel n 0) as (l & E & B); [lia|lia|lia|exact Hf|]. exists l. rewrite !Z.mul_0_l in E. split; assumption.
Qed.
Print Assumptions split_rows_partial.

(** more than 2^31 floats of work memory in total: undefined, although the batch would be divided *)
Theorem split_rows_overflow nstack outs n_input n_output n x y fuel :
  Forall (fun o => 0 < o) outs -> sumZ outs < 2147483648 -> 2147483648 <= sumZ outs * n ->
  split_rows nstack outs n_input n_output (S fuel) n x y = Fault IntOverflow.
Proof.
  intros F Hs Hw. cbn [split_rows]. rewrite sum_int_ok by (auto; lia). cbn [rbind]. rewrite Z.add_0_l. rewrite to_int_over by exact Hw. reflexivity.
Qed.
Print Assumptions split_rows_overflow.

(** ** work memory *)
Theorem predict_work_exact fps outs : 0 < fps -> Forall (fun o => 0 < o) outs -> fps * Z.of_nat (length outs) < 2147483648 ->
  predict_work fps outs = if sumZ outs + fps * Z.of_nat (length outs) <? 2147483648 then Ok (sumZ outs + fps * Z.of_nat (length outs)) else Fault IntOverflow.
Proof.
  intros Hf F HL. unfold predict_work. destruct (Z_lt_le_dec (sumZ outs) 2147483648) as [S|S].
  - rewrite sum_int_ok by (auto; lia). cbn [rbind]. rewrite Z.add_0_l. pose proof (sumZ_pos outs F). rewrite to_int_ok by lia. cbn [rbind].
    destruct (Z.ltb_spec (sumZ outs + fps * Z.of_nat (length outs)) 2147483648); [apply to_int_ok; lia|apply to_int_over; lia].
  - rewrite sum_int_over by (auto; lia). cbn [rbind]. destruct (Z.ltb_spec (sumZ outs + fps * Z.of_nat (length outs)) 2147483648); [lia|reflexivity].
Qed.
Print Assumptions predict_work_exact.

(** of backpropagation: the same and the inputs *)
Theorem backprop_work_exact fps n_input outs : 0 < fps -> 0 < n_input -> Forall (fun o => 0 < o) outs -> fps * Z.of_nat (length outs) < 2147483648 ->
  let total := sumZ outs + n_input + fps * Z.of_nat (length outs) in
  backprop_work fps n_input outs = if total <? 2147483648 then Ok total else Fault IntOverflow.
Proof.
  intros Hf Hi F HL total. unfold backprop_work. pose proof (sumZ_pos outs F) as P. destruct (Z_lt_le_dec (sumZ outs) 2147483648) as [S|S].
  - rewrite sum_int_ok by (auto; lia). cbn [rbind]. rewrite Z.add_0_l. destruct (Z_lt_le_dec (sumZ outs + n_input) 2147483648) as [T|T].
    + rewrite !to_int_ok by lia. cbn [rbind]. unfold total. destruct (Z.ltb_spec (sumZ outs + n_input + fps * Z.of_nat (length outs)) 2147483648);
        [apply to_int_ok; lia|apply to_int_over; lia].
    + rewrite to_int_over by lia. cbn [rbind]. unfold total. destruct (Z.ltb_spec (sumZ outs + n_input + fps * Z.of_nat (length outs)) 2147483648); [nia|reflexivity].
  - rewrite sum_int_over by (auto; lia). cbn [rbind]. unfold total. destruct (Z.ltb_spec (sumZ outs + n_input + fps * Z.of_nat (length outs)) 2147483648); [nia|reflexivity].
Qed.
Print Assumptions backprop_work_exact.

(** REFUTED: there is a network that neuralnet_create accepts (sizes_fit, see create_network) and neuralnet_predict does not *)
Theorem predict_work_refuted : exists sizes, sizes_fit sizes /\ forall fps, 0 < fps -> predict_work fps (tl sizes) = Fault IntOverflow.
Proof.
  exists [1; 1073741824; 1; 1073741824]. split.
  - split; [repeat constructor; lia|]. cbn. repeat constructor; cbn; lia.
  - intros fps Hf. reflexivity.
Qed.
Print Assumptions predict_work_refuted.

(** ** cases *)
Example train_rows_case : train_rows 3 1 2 5 [4; 2; 0; 1; 3] 6 0 =
  Ok [(2, [(12, 4); (6, 2)]); (2, [(0, 0); (3, 1)]); (1, [(9, 3)])].
Proof. reflexivity. Qed.
Example sample_rows_case : sample_rows 3 2 4 = Ok [(0, 0); (3, 2); (6, 4); (9, 6)]. Proof. reflexivity. Qed.
Example split_rows_case : split_rows 10 [3; 2] 4 2 6 5 0 0 = Ok [(0, 0, 2); (8, 4, 1); (12, 6, 2)]. Proof. reflexivity. Qed.
Example predict_work_case : predict_work 8 [16; 3] = Ok 35. Proof. reflexivity. Qed.
Example backprop_work_case : backprop_work 8 4 [16; 3] = Ok 39. Proof. reflexivity. Qed.
