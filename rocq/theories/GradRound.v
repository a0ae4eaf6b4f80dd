(** GradRound.v -- rounding errors of the backward pass of a whole network in binary32 *)
From Coquelicot Require Import Coquelicot.
From Flocq Require Import Core BinarySingleNaN Relative.
From Coq Require Import ZArith Bool List Arith Reals Lia Lra.
From Verif Require Import Base BaseProofs Ops OpsR Mem MemProofs Kernels KernelProofs KernelProofs2 OpsB32 B32Facts MetricB32 InitProofs Activation ActivationProofs Loss Neuralnet
  ForwardProofs BackpropProofs SpecReal RealForward RealGrad GradProofs SpecBits BitsProofs GradPropProofs SpecRound SpecLibm RoundProofs ActReal RoundNet DotTree SpecGradRound SlopeRound LossRound.
Import ListNotations.
Local Open Scope R_scope.

Notation NZ := b32_zero.
Lemma vbv (l : list b32) i : vec (map (@B2R 24 128) l) i = bv (nth i l NZ).
Proof. unfold vec. rewrite <- (map_nth (@B2R 24 128)). reflexivity. Qed.
Lemma dot_ext n w w' b : (forall i, (i < n)%nat -> w i = w' i) -> dot n w b = dot n w' b.
Proof.
  intros H. unfold dot. rewrite (sumf_ext n (fun i => Rabs (w i) * mag (b i)) (fun i => Rabs (w' i) * mag (b i))) by (intros i Hi; rewrite H by exact Hi; reflexivity).
  rewrite (sumf_ext n (fun i => Rabs (w i) * err (b i)) (fun i => Rabs (w' i) * err (b i))) by (intros i Hi; rewrite H by exact Hi; reflexivity). reflexivity.
Qed.
Lemma nth_map2 (f : b32 -> b32 -> b32) (l1 l2 : list b32) i : length l1 = length l2 -> (i < length l1)%nat -> nth i (map2 f l1 l2) NZ = f (nth i l1 NZ) (nth i l2 NZ).
Proof. revert l2 i. induction l1 as [|a l1 IH]; intros [|b l2] [|i] L Hi; cbn in *; try lia; [reflexivity|]. apply IH; lia. Qed.
Lemma in_slice {A} (i n : nat) (l : list A) v : In v (slice i n l) -> In v l.
Proof.
  unfold slice. intros H. rewrite <- (firstn_skipn i l). apply in_or_app. right. rewrite <- (firstn_skipn n (skipn i l)). apply in_or_app. left. exact H.
Qed.

Lemma nth_slice (l : list b32) o w i : (i < w)%nat -> nth i (slice o w l) NZ = nth (o + i) l NZ.
Proof.
  intros Hi. pose proof (@nth_error_slice b32 o w l i Hi) as E. destruct (nth_error l (o + i)) as [x|] eqn:E2.
  - rewrite (nth_error_nth _ _ _ E), (nth_error_nth _ _ _ E2). reflexivity.
  - apply nth_error_None in E, E2. rewrite !nth_overflow by assumption. reflexivity.
Qed.
Lemma nth_outer (lm : libm) (xs ys : list b32) i j : (i < length xs)%nat -> (j < length ys)%nat ->
  nth (i * length ys + j) (@outer_f (opsB32 lm) xs ys) NZ = nth j (@outer_row (opsB32 lm) ys (nth i xs NZ)) NZ.
Proof.
  intros Hi Hj. unfold outer_f. assert (LR : forall x, length (@outer_row (opsB32 lm) ys x) = length ys) by (intros x; exact (@length_outer_row (opsB32 lm) ys x)).
  revert i Hi. induction xs as [|x xs IH]; intros i Hi; cbn in Hi; [lia|]. cbn [flat_map]. destruct i as [|i].
  - cbn [Nat.mul Nat.add nth]. apply app_nth1. exact (eq_ind_r (fun z => (j < z)%nat) Hj (LR x)).
  - rewrite app_nth2.
    + change (@F (opsB32 lm)) with b32 in *. rewrite LR. replace (S i * length ys + j - length ys)%nat with (i * length ys + j)%nat by (cbn [Nat.mul]; lia). cbn [nth]. apply IH. lia.
    + change (@F (opsB32 lm)) with b32 in *. rewrite LR. cbn [Nat.mul]. lia.
Qed.
Lemma outer_elem (lm : libm) (xs ys : list b32) i j : (i < length xs)%nat -> (j < length ys)%nat ->
  nth (i * length ys + j) (@outer_f (opsB32 lm) xs ys) NZ =
  if @ftrue (opsB32 lm) (nth i xs NZ) then Bmult mode_NE (nth i xs NZ) (nth j ys NZ) else NZ.
Proof.
  intros Hi Hj. rewrite nth_outer by assumption. unfold outer_row. destruct (@ftrue (opsB32 lm) (nth i xs NZ)).
  - exact (nth_map32 (fun v : b32 => Bmult mode_NE (nth i xs NZ) v) ys j Hj).
  - exact (nth_repeat NZ (length ys) j).
Qed.
Lemma len_loss (lm : libm) lf (os ts : list b32) m : length os = m -> length ts = m -> length (@loss_f (opsB32 lm) lf os ts) = m.
Proof. intros A B. unfold loss_f. rewrite length_map2. change (@F (opsB32 lm)) with b32. rewrite A, B. apply Nat.min_id. Qed.
Lemma len_loss_R lf (os ts : list R) m : length os = m -> length ts = m -> length (@loss_f opsR lf os ts) = m.
Proof. intros A B. unfold loss_f. rewrite length_map2. change (@F opsR) with R. rewrite A, B. apply Nat.min_id. Qed.
Lemma len_deriv (lm : libm) g (os es : list b32) m : length os = m -> length es = m -> length (@deriv_f (opsB32 lm) g os es) = m.
Proof. intros A B. etransitivity; [apply (@length_deriv_f (opsB32 lm)); exact (eq_trans A (eq_sym B))|exact B]. Qed.
Lemma len_deriv_R g (os es : list R) m : length os = m -> length es = m -> length (@deriv_f opsR g os es) = m.
Proof. intros A B. etransitivity; [apply (@length_deriv_f opsR); exact (eq_trans A (eq_sym B))|exact B]. Qed.
Lemma nth_loss (lm : libm) lf (os ts : list b32) m j : length os = m -> length ts = m -> (j < m)%nat ->
  nth j (@loss_f (opsB32 lm) lf os ts) NZ = @loss_elem (opsB32 lm) lf m (nth j os NZ) (nth j ts NZ).
Proof. intros A B Hj. subst m. exact (nth_map2 (@loss_elem (opsB32 lm) lf (length os)) os ts j (eq_sym B) Hj). Qed.
Lemma vec_loss lf (os ts : list R) m j : length os = m -> length ts = m -> (j < m)%nat ->
  vec (@loss_f opsR lf os ts) j = @loss_elem opsR lf m (vec os j) (vec ts j).
Proof. intros A B Hj. subst m. exact (vec_map2 (@loss_elem opsR lf (length os)) os ts j Hj (eq_sym B)). Qed.
Lemma len_block (FO : fops) (xs dl : list F) n m : length xs = n -> length dl = m -> length (dl ++ outer_f xs dl) = (m + n * m)%nat.
Proof. intros A B. rewrite app_length, length_outer_f, A, B. reflexivity. Qed.
Lemma len_mvm (FO : fops) c (vs : list F) n m w y0 : length (mvm_f c vs (rows n m w) y0) = n.
Proof. unfold mvm_f. rewrite map_length. apply length_rows. Qed.
Lemma bp_f_step (FO : fops) (c : cfg) ve lf (l l2 : flayer) net xs e :
  bp_f c (derivs lf (l :: l2 :: net)) (vals_f c ve (l :: l2 :: net) xs) e =
  let o := layer_f c ve 0 l xs in
  match bp_f c (derivs lf (l2 :: net)) (vals_f c ve (l2 :: net) o) e with
  | ((d2, _) :: _) as gs => let dl := deriv_f (fact l) o (mvm_f c d2 (rows (fn_out l) (length d2) (fw l2)) f0) in (dl, outer_f xs dl) :: gs
  | [] => []
  end.
Proof. destruct net; reflexivity. Qed.
Lemma nth_error_mvm (FO : fops) c (vs w : list F) n m j y0 : (j < n)%nat ->
  nth_error (mvm_f c vs (rows n m w) y0) j = Some (dot_f c vs (slice (j * m) m w) y0).
Proof. intros Hj. unfold mvm_f. rewrite nth_error_map, nth_rows by exact Hj. reflexivity. Qed.
Lemma nth_mvm (lm : libm) c (vs w : list b32) n m j : (j < n)%nat ->
  nth j (@mvm_f (opsB32 lm) c vs (@rows (opsB32 lm) n m w) f0) NZ = @dot_f (opsB32 lm) c vs (slice (j * m) m w) NZ.
Proof. intros Hj. apply nth_error_nth. exact (nth_error_mvm (opsB32 lm) c vs w n m j f0 Hj). Qed.
Lemma eq0_R (lm : libm) (x : b32) : fin x = true -> @ftrue (opsB32 lm) x = false -> bv x = 0.
Proof.
  intros Fx H. unfold ftrue in H. change (@feq (opsB32 lm) x f0) with (Beqb x NZ) in H. apply Bool.negb_false_iff in H.
  destruct x as [s|s| |s m e B]; try discriminate Fx; [reflexivity|]. destruct s; discriminate H.
Qed.

Section Back.
  Variable lm : libm.
  Variable c : cfg.
  Notation OP := (opsB32 lm).
  Notation VE := (@exp256_lane OP).

  (** the network of exact numbers *)
  Definition real_layer (l : @flayer OP) : @flayer opsR :=
    @Build_flayer opsR (map (@B2R 24 128) (fw l)) (map (@B2R 24 128) (fb l)) (fact l).
  Lemma real_out l : @fn_out opsR (real_layer l) = @fn_out OP l.
  Proof. unfold fn_out, real_layer. cbn [fb]. apply map_length. Qed.

  (** ** one layer forwards *)
  Lemma act_is_ok g zs hs m k A D (s : nat -> R) : covered lm g -> g <> Softmax -> length zs = m -> @act_rel OP VE g zs hs ->
    (forall j, (j < m)%nat -> fin (nth j zs NZ) = true /\ approx k (A j) (D j) (bv (nth j zs NZ)) (s j) /\ 0 <= D j /\ (1 + u32) ^ k * A j + D j <= top g) ->
    forall j, (j < m)%nat -> act_ok lm g (nth j zs NZ) (nth j hs NZ) (s j) (act_math g m s j).
  Proof.
    intros CV NS LZ AR HZ j Hj. destruct (HZ j Hj) as (FZ & (SA & SE) & D0 & CAP). change (@F OP) with b32 in *. destruct g; cbn [act_ok act_rel] in *; try exact I.
    - (* softplus *) destruct CV as (AE & _). split; [|exact AE]. cbn [act_math act_math1]. pose proof (exp_pos (s j)) as EP. split.
      + rewrite <- ln_1. apply ln_le; lra.
      + pose proof (softplus_bnd (s j)) as SB. unfold softplus in SB. apply Rabs_le_inv in SB. pose proof (up1 k) as UK. cbn [top] in CAP.
        assert (0 <= A j) by (pose proof (Rabs_pos (s j)); lra). assert (1 * A j <= (1 + u32) ^ k * A j) by (apply Rmult_le_compat_r; lra). lra.
    - (* hard sigmoid *) split; [|reflexivity]. subst hs.
      set (f := fun x : b32 => if Bltb x (b32_lit (-5) 2) then NZ else if Bltb (b32_lit 5 2) x then b32_ofZ 1 else Bplus mode_NE (Bmult mode_NE (b32_lit 1 5) x) (b32_lit 1 2)).
      exact (nth_map32 f zs j (eq_ind_r (fun z => (j < z)%nat) Hj LZ)).
    - (* relu *) split; [|reflexivity]. destruct (elem_nth _ _ _ _ AR) as (LH & NJ). rewrite LZ in NJ. specialize (NJ j Hj).
      destruct (relu_R (nth j zs NZ) FZ) as (F1 & E1 & F2 & E2). destruct NJ as [-> | -> ]; assumption.
    - (* sigmoid *) cbn [act_math act_math1]. pose proof (exp_pos (- s j)) as EP. split.
      + apply Rmult_le_pos; [lra|]. left. apply Rinv_0_lt_compat. lra.
      + unfold Rdiv. rewrite Rmult_1_l, <- Rinv_1. apply Rinv_le; lra.
    - (* tanh *) cbn [act_math act_math1]. pose proof (exp_pos (s j)) as P1. pose proof (exp_pos (- s j)) as P2. split.
      + apply Rmult_le_reg_r with (exp (s j) + exp (- s j)); [lra|]. unfold Rdiv. rewrite Rmult_assoc, Rinv_l by lra. lra.
      + apply Rmult_le_reg_r with (exp (s j) + exp (- s j)); [lra|]. unfold Rdiv. rewrite Rmult_assoc, Rinv_l by lra. lra.
  Qed.

  Lemma layer_near (l : @flayer OP) k (xs : list b32) (rx : list R) (th a d x : nat -> R) :
    let n := length xs in let m := @fn_out OP l in let g := @fact OP l in let z := zf n m th x in
    let A := abs_lin n m th a in let D := low_lin n m th d in
    length (@fw OP l) = (n * m)%nat -> (1 <= m)%nat -> length rx = n -> covered lm g ->
    Forall (fun v => fin v = true) (@fw OP l) -> Forall (fun v => fin v = true) (@fb OP l) -> Forall (fun v => fin v = true) xs ->
    (forall j, (j < m)%nat -> th j = bv (nth j (@fb OP l) NZ)) ->
    (forall q, (q < n * m)%nat -> th (m + q)%nat = bv (nth q (@fw OP l) NZ)) ->
    (forall i, (i < n)%nat -> vec rx i = x i /\ 0 <= d i /\ approx k (a i) (d i) (bv (nth i xs NZ)) (x i)) ->
    width_ok g m (fun j => ((1 + u32) ^ (k + n + 1) - 1) * A j + D j) -> (forall j, (j < m)%nat -> (1 + u32) ^ (k + n + 1) * A j + D j <= top g) ->
    let os := @layer_f OP c VE 0 l xs in let ro := @layer_f opsR c exp 0 (real_layer l) rx in
    exists zs : list b32, length os = m /\ length ro = m /\ Forall (fun v => fin v = true) os /\
      forall j, (j < m)%nat -> fin (nth j zs NZ) = true /\ Rabs (bv (nth j zs NZ) - z j) <= err (value (k + n + 1) (A j) (D j)) /\
        fin (nth j os NZ) = true /\ 0 <= low_act g m A D j /\
        approx (k + n + 1 + act_roundings g) (abs_act g m A j) (low_act g m A D j) (bv (nth j os NZ)) (act_math g m z j) /\
        vec ro j = act_math g m z j /\ (g <> Softmax -> act_ok lm g (nth j zs NZ) (nth j os NZ) (z j) (act_math g m z j)).
  Proof.
    intros n m g z A D LW M1 LX CV FW FB FX TB TW HX WD HC os ro.
    destruct (@layer_f_rel OP c VE (mul1_B32 lm) 0%Z l xs LW M1) as (zs & LR & AR). fold os in AR. change (@F OP) with b32 in *.
    exists zs. assert (LZ : length zs = m) by exact (proj1 LR).
    assert (HX2 : forall i, (i < n)%nat -> 0 <= d i /\ approx k (a i) (d i) (bv (nth i xs NZ)) (x i)) by (intros i Hi; apply HX; exact Hi).
    assert (LIN : forall j, (j < m)%nat -> fin (nth j zs NZ) = true /\ approx (k + n + 1) (A j) (D j) (bv (nth j zs NZ)) (z j)).
    { intros j Hj. apply (lin_err lm (cfg_fma c) k m (fw l) (fb l) xs zs th a d x LR FX FW FB TB TW HX2 j Hj). eapply Rle_trans; [apply HC; exact Hj|apply top_le]. }
    assert (DP : forall j, 0 <= D j) by (intros j; apply low_lin_pos; intros i Hi; apply HX; exact Hi).
    assert (HZ : forall j, (j < m)%nat -> fin (nth j zs NZ) = true /\ approx (k + n + 1) (A j) (D j) (bv (nth j zs NZ)) (z j) /\ 0 <= D j /\ (1 + u32) ^ (k + n + 1) * A j + D j <= top g).
    { intros j Hj. destruct (LIN j Hj) as (FZ & AZ). split; [exact FZ|]. split; [exact AZ|]. split; [apply DP|apply HC; exact Hj]. }
    destruct (act_err lm g (k + n + 1) A D zs os z m CV WD LZ AR HZ) as (LH & ACT).
    assert (LWR : length (fw (real_layer l)) = (length rx * fn_out (real_layer l))%nat).
    { rewrite real_out. change (@fw opsR (real_layer l)) with (map (@B2R 24 128) (@fw OP l)). rewrite map_length. change (@F opsR) with R. rewrite LX. exact LW. }
    split; [exact LH|]. split. { etransitivity; [exact (@length_layer_f opsR c exp 0%Z (real_layer l) rx LWR)|exact (real_out l)]. }
    split. { apply Forall_forall. intros v Hv. destruct (In_nth _ _ NZ Hv) as (j & Hj & <-). apply ACT. rewrite <- LH. exact Hj. }
    intros j Hj. destruct (HZ j Hj) as (FZ & AZ & _). destruct (ACT j Hj) as (FO & D0 & AO).
    split; [exact FZ|]. split; [exact (proj2 AZ)|]. split; [exact FO|]. split; [exact D0|]. split; [exact AO|]. split.
    - unfold ro. rewrite (layer_R c 0%Z (real_layer l) rx LWR j); [|rewrite real_out; exact Hj]. rewrite real_out. change (@fact opsR (real_layer l)) with g.
      change (@F opsR) with R in *. rewrite LX. apply act_math_ext; [exact Hj|]. intros j' Hj'. unfold z, zf.
      change (@fb opsR (real_layer l)) with (map (@B2R 24 128) (@fb OP l)). change (@fw opsR (real_layer l)) with (map (@B2R 24 128) (@fw OP l)).
      rewrite vbv, (TB j' Hj'). f_equal. apply sumf_ext. intros i Hi. rewrite vbv. rewrite (proj1 (HX i Hi)). f_equal. symmetry. apply TW. fold m. nia.
    - intros NS. exact (act_is_ok g zs os m (k + n + 1) A D z CV NS LZ AR HZ j Hj).
  Qed.

  (** ** one layer backwards *)
  Lemma nth_deriv g (os es : list b32) j : length os = length es -> (j < length es)%nat ->
    nth j (@deriv_f OP g os es) NZ = match g with Linear | Softmax => nth j es NZ | _ => Bmult mode_NE (nth j es NZ) (@act_d OP g (nth j os NZ)) end.
  Proof. intros L Hj. destruct g; unfold deriv_f; try reflexivity; exact (nth_map2 (fun x a => Bmult mode_NE x (@act_d OP _ a)) es os j (eq_sym L) Hj). Qed.
  Lemma vec_deriv g (os es : list R) j : length os = length es -> (j < length es)%nat ->
    vec (@deriv_f opsR g os es) j = match g with Linear | Softmax => vec es j | _ => vec es j * @act_d opsR g (vec os j) end.
  Proof. intros L Hj. destruct g; unfold deriv_f; try reflexivity; exact (vec_map2 (fun x a => x * @act_d opsR _ a) es os j Hj (eq_sym L)). Qed.

  Lemma block_near (xs dl : list b32) (rx rdl : list R) (bx bd : nat -> near) m n : length xs = n -> length dl = m -> length rx = n -> length rdl = m ->
    Forall (fun v => fin v = true) xs ->
    (forall i, (i < n)%nat -> is_near (bx i) (bv (nth i xs NZ)) (vec rx i)) ->
    (forall j, (j < m)%nat -> fin (nth j dl NZ) = true /\ is_near (bd j) (bv (nth j dl NZ)) (vec rdl j)) ->
    (forall i j, (i < n)%nat -> (j < m)%nat -> cap (rounded 1 (times (bx i) (bd j))) <= 2 ^ 127) ->
    forall q, (q < m + n * m)%nat ->
      fin (nth q (dl ++ @outer_f OP xs dl) NZ) = true /\
      is_near (if Nat.ltb q m then bd q else rounded 1 (times (bx ((q - m) / m)%nat) (bd ((q - m) mod m))))
        (bv (nth q (dl ++ @outer_f OP xs dl) NZ)) (vec (rdl ++ @outer_f opsR rx rdl) q).
  Proof.
    intros EN EM LX LD. subst n m. set (m := length dl) in *. set (n := length xs) in *. intros FX HX HD HC q Hq. destruct (Nat.ltb_spec q m) as [L|L].
    - rewrite app_nth1 by exact L. rewrite vec_app1 by (rewrite LD; exact L). apply HD. exact L.
    - assert (M0 : m <> 0%nat) by (intros ->; lia). set (i := ((q - m) / m)%nat). set (j := ((q - m) mod m)%nat).
      assert (EQ : (q = m + (i * m + j))%nat). { pose proof (Nat.div_mod (q - m) m M0). unfold i, j. rewrite (Nat.mul_comm (_ / _)). lia. }
      assert (Hj : (j < m)%nat) by (apply Nat.mod_upper_bound; exact M0).
      assert (Hi : (i < n)%nat). { destruct (lt_dec i n) as [H|H]; [exact H|]. exfalso. assert (n * m <= i * m)%nat by (apply Nat.mul_le_mono_r; lia). lia. }
      assert (E1 : nth q (dl ++ @outer_f OP xs dl) NZ = if @ftrue OP (nth i xs NZ) then Bmult mode_NE (nth i xs NZ) (nth j dl NZ) else NZ).
      { rewrite EQ at 1. etransitivity; [exact (app_nth2_plus dl (@outer_f OP xs dl) NZ (i * length dl + j))|]. apply outer_elem; assumption. }
      assert (E2 : vec (rdl ++ @outer_f opsR rx rdl) q = vec rx i * vec rdl j).
      { rewrite EQ at 1. replace (m + (i * m + j))%nat with (length rdl + (i * length rdl + j))%nat by (rewrite LD; reflexivity). rewrite vec_app2. apply outer_R; rewrite ?LX, ?LD; assumption. }
      rewrite E1, E2.
      destruct (HD j Hj) as (FD & ND). pose proof (HX i Hi) as NX. specialize (HC i j Hi Hj).
      assert (FI : fin (nth i xs NZ) = true) by (apply finite_nth; exact FX).
      destruct (@ftrue OP (nth i xs NZ)) eqn:FT.
      + exact (near_fmul _ _ _ _ _ _ FI FD NX ND HC).
      + pose proof (eq0_R lm _ FI FT) as E0. split; [reflexivity|]. change (bv NZ) with 0. apply near_rnd with (v := 0).
        * pose proof (near_mul _ _ _ _ _ _ NX ND) as NM. rewrite E0, Rmult_0_l in NM. exact NM.
        * unfold Rminus. rewrite Rplus_opp_r, Rabs_R0. cbn [INR]. pose proof eta32_pos. lra.
  Qed.

  Lemma clear_away g m (z : nat -> R) j ez es r1 r2 : Rabs r1 <= ez -> Rabs r2 <= es -> clear g (z j) ez (act_math g m z j) es -> away g (z j).
  Proof.
    intros H1 H2 H. pose proof (Rabs_pos r1). pose proof (Rabs_pos r2). destruct g; cbn [clear away] in *; try exact I.
    - cbn [act_math act_math1] in H.
      assert (K : forall v, v = 5 / 2 \/ v = - 5 / 2 -> z j = v -> False).
      { intros v Hv E. rewrite E in H. destruct H as [H|(A & B)].
        - destruct Hv as [-> | -> ]; [rewrite Rabs_right in H by lra|rewrite Rabs_left in H by lra]; lra.
        - destruct Hv as [-> | -> ].
          + replace (5 / 2 / 5 + 1 / 2) with 1 in B by lra. rewrite Rmin_left in B by lra. rewrite Rmax_right in B by lra. lra.
          + replace (- 5 / 2 / 5 + 1 / 2) with 0 in A by lra. rewrite Rmin_right in A by lra. rewrite Rmax_left in A by lra. lra. }
      split; intros E; [apply (K (5 / 2))|apply (K (- 5 / 2))]; auto.
    - intros E. rewrite E, Rabs_R0 in H. lra.
  Qed.

  Variable lf : loss.
  Variable ts : list b32.
  Hypothesis FT : Forall (fun v => fin v = true) ts.
  Let t := vec (map (@B2R 24 128) ts).
  Let rts := map (@B2R 24 128) ts.

  Lemma last_d g : matching lf g -> last_deriv lf g = last_through lf g.
  Proof. unfold matching, last_deriv, last_through. destruct lf; intros H; try reflexivity; subst g; reflexivity. Qed.

  Theorem bp_near : forall (net : list (@flayer OP)) (l0 : @flayer OP) k (xs : list b32) (rx : list R) (th a d x : nat -> R) n,
    let nt := l0 :: net in let sh := shape_b32 (triples nt) in let m := @fn_out OP l0 in
    length xs = n -> length rx = n -> @fits_f OP n nt -> covered_net lm (triples nt) -> Forall (fun v => fin v = true) xs -> net_par (triples nt) n th ->
    (forall i, (i < n)%nat -> vec rx i = x i /\ 0 <= d i /\ approx k (a i) (d i) (bv (nth i xs NZ)) (x i)) ->
    in_range sh n k th a d -> trainable lf sh -> length ts = n_outputs sh n -> safe lf t sh n k th a d x ->
    let e := @loss_f OP lf (@forward_f OP c VE nt 0 xs) ts in
    let re := @loss_f opsR lf (@forward_f opsR c exp (map real_layer nt) 0 rx) rts in
    let gs := @bp_f OP c (@derivs OP lf nt) (@vals_f OP c VE nt xs) e in
    let rgs := @bp_f opsR c (@derivs opsR lf (map real_layer nt)) (@vals_f opsR c exp (map real_layer nt) rx) re in
    exists dl w rest rdl rw rrest, gs = (dl, w) :: rest /\ rgs = (rdl, rw) :: rrest /\ length dl = m /\ length rdl = m /\
      (forall j, (j < m)%nat -> fin (nth j dl NZ) = true /\ is_near (delta lf t sh n k th a d j) (bv (nth j dl NZ)) (vec rdl j)) /\
      smooth sh n th x /\ (lf <> CCE -> target_ok lf (n_outputs sh n) t (eval sh n th x)) /\
      length (@flat OP gs) = n_params sh n /\
      forall q, (q < n_params sh n)%nat -> fin (nth q (@flat OP gs) NZ) = true /\
        is_near (grad_near lf t sh n k th a d q) (bv (nth q (@flat OP gs) NZ)) (vec (@flat opsR rgs) q).
  Proof.
    induction net as [|l2 net IH]; intros l k xs rx th a d x n nt sh m EN; subst n; set (n := length xs) in *; intros LX HF CN FX HP HX HR HT LT HS e re gs rgs; change (@F OP) with b32 in *; change (@F opsR) with R in *.
    - (* last layer *)
      destruct HF as (LW & M1 & _). pose proof (Forall_inv CN) as (CV & FW & FB). cbn [fst snd] in CV, FW, FB. destruct HP as (TB & TW & _).
      cbn [sh nt shape_b32 triples map fst snd in_range] in HR. destruct HR as (WD & HC & _).
      change (length (@fb OP l)) with m in *. set (g := @fact OP l) in *.
      destruct (layer_near l k xs rx th a d x LW M1 LX CV FW FB FX TB TW HX WD HC) as (zs & LO & LRO & FO & HL). fold n m g in LO, LRO, HL.
      set (os := @layer_f OP c VE 0 l xs) in *. set (ro := @layer_f opsR c exp 0 (real_layer l) rx) in *.
      cbn [sh nt shape_b32 triples map fst snd trainable] in HT. change (matching lf g) in HT.
      cbn [sh nt shape_b32 triples map fst snd n_outputs] in LT. change (length ts = m) in LT.
      unfold sh, nt in HS. cbn [shape_b32 triples map fst snd safe] in HS. change (length (@fb OP l)) with m in HS. fold g in HS. destruct HS as (HD & HO & HLs).
      set (e0 := @loss_f OP lf os ts). set (re0 := @loss_f opsR lf ro rts).
      assert (LRT : length rts = m) by (unfold rts; rewrite map_length; exact LT).
      assert (LE : length e0 = m) by (apply len_loss; assumption).
      assert (LRE : length re0 = m) by (apply len_loss_R; assumption).
      set (gd := last_deriv lf g). set (dl := @deriv_f OP gd os e0). set (rdl := @deriv_f opsR gd ro re0).
      assert (EG : gs = [(dl, @outer_f OP xs dl)]) by reflexivity.
      assert (ERG : rgs = [(rdl, @outer_f opsR rx rdl)]) by reflexivity.
      assert (LDL : length dl = m) by (apply len_deriv; assumption).
      assert (LRD : length rdl = m) by (apply len_deriv_R; assumption).
      assert (DN : forall j, (j < m)%nat -> fin (nth j dl NZ) = true /\ is_near (delta lf t sh n k th a d j) (bv (nth j dl NZ)) (vec rdl j)).
      { intros j Hj. destruct (HL j Hj) as (FZ & EZ & FOj & D0 & AO & ER & OK). apply near_value in AO. destruct (HD j Hj) as (CD & CLR). specialize (HLs j Hj).
        assert (FTj : fin (nth j ts NZ) = true) by (apply finite_nth; exact FT).
        assert (ETj : t j = bv (nth j ts NZ)) by (unfold t; apply vbv).
        assert (EE : nth j e0 NZ = @loss_elem OP lf m (nth j os NZ) (nth j ts NZ)).
        { apply nth_loss; assumption. }
        assert (ERE : vec re0 j = @loss_elem opsR lf m (act_math g m (zf n m th x) j) (t j)).
        { unfold re0. rewrite (vec_loss lf ro rts m j LRO LRT Hj), ER. reflexivity. }
        rewrite ETj in HLs, ERE.
        destruct (loss_slope_near lm lf m (out_near n m g k th a d j) (nth j os NZ) (nth j ts NZ) (act_math g m (zf n m th x) j) ltac:(lia) FOj FTj AO HLs) as (FE & NE).
        rewrite <- EE in FE, NE. rewrite <- ERE in NE.
        assert (ND : delta lf t sh n k th a d j = through gd (out_near n m g k th a d j) (loss_slope lf m (out_near n m g k th a d j) (bv (nth j ts NZ)))).
        { unfold gd. rewrite (last_d g HT), <- ETj. reflexivity. }
        change (delta lf t [(m, g)] n k th a d j) with (delta lf t sh n k th a d j) in CD.
        rewrite ND in CD |- *. unfold dl, rdl. rewrite (nth_deriv gd os e0 j (eq_trans LO (eq_sym LE)) (eq_ind_r (fun z => (j < z)%nat) Hj LE)), (vec_deriv gd ro re0 j (eq_trans LRO (eq_sym LRE)) (eq_ind_r (fun z => (j < z)%nat) Hj LRE)), ER.
        assert (GD : gd <> Softmax /\ (gd = g \/ gd = Linear)).
        { unfold gd, last_deriv, matching in *. destruct lf; try (split; [exact HT|left; reflexivity]); subst g; rewrite HT; (split; [discriminate|right; reflexivity]). }
        destruct GD as (GS & GD).
        apply (through_near lm gd (out_near n m g k th a d j) _ (nth j e0 NZ) (nth j zs NZ) (nth j os NZ) (vec re0 j) (zf n m th x j) _ (err (value (k + n + 1) (abs_lin n m th a j) (low_lin n m th d j)))); auto.
        - destruct GD as [-> | -> ]; [apply OK; congruence|exact I].
        - destruct GD as [-> | -> ]; [exact CLR|exact I]. }
      assert (NX : forall i, (i < n)%nat -> is_near (value k (a i) (d i)) (bv (nth i xs NZ)) (vec rx i)).
      { intros i Hi. destruct (HX i Hi) as (-> & _ & AP). apply near_value. exact AP. }
      exists dl, (@outer_f OP xs dl), [], rdl, (@outer_f opsR rx rdl), []. split; [exact EG|]. split; [exact ERG|]. split; [exact LDL|]. split; [exact LRD|]. split; [exact DN|].
      assert (AW : forall j, (j < m)%nat -> away g (zf n m th x j)).
      { intros j Hj. destruct (HL j Hj) as (_ & EZ & _ & _ & (_ & EO) & _). destruct (HD j Hj) as (_ & CLR). exact (clear_away g m _ j _ _ _ _ EZ EO CLR). }
      split. { unfold sh, nt. cbn [shape_b32 triples map fst snd smooth]. change (length (@fb OP l)) with m. fold g. split; [exact AW|exact I]. }
      split. { intros NC. unfold sh, nt. cbn [shape_b32 triples map fst snd n_outputs eval]. change (length (@fb OP l)) with m. fold g.
        assert (TK : forall j, (j < m)%nat -> match lf with MAE | MAPE => act_math g m (zf n m th x) j <> t j | _ => True end).
        { intros j Hj. destruct (HL j Hj) as (_ & _ & _ & _ & (_ & EO) & _). destruct (HLs j Hj) as (_ & _ & CL). pose proof (Rabs_pos (bv (nth j os NZ) - act_math g m (zf n m th x) j)) as P0.
          change (err (out_near n m g k th a d j)) with (((1 + u32) ^ (k + n + 1 + act_roundings g) - 1) * abs_act g m (abs_lin n m th a) j + low_act g m (abs_lin n m th a) (low_lin n m th d) j) in CL.
          destruct lf; try exact I; intros E; rewrite E in CL; unfold Rminus at 2 in CL; rewrite Rplus_opp_r, Rabs_R0 in CL; lra. }
        unfold target_ok. destruct lf; try exact I; try (exfalso; apply NC; reflexivity); exact TK. }
      assert (NP : n_params sh n = (m + n * m)%nat) by (unfold sh, nt; cbn [shape_b32 triples map fst snd n_params]; change (length (@fb OP l)) with m; lia).
      rewrite EG, ERG. assert (EF : @flat OP [(dl, @outer_f OP xs dl)] = dl ++ @outer_f OP xs dl) by (unfold flat; cbn [flat_map fst snd]; apply app_nil_r).
      assert (ERF : @flat opsR [(rdl, @outer_f opsR rx rdl)] = rdl ++ @outer_f opsR rx rdl) by (unfold flat; cbn [flat_map fst snd]; apply app_nil_r).
      rewrite EF, ERF. split. { etransitivity; [exact (len_block OP xs dl n m eq_refl LDL)|symmetry; exact NP]. }
      intros q Hq. rewrite NP in Hq.
      destruct (block_near xs dl rx rdl (fun i => value k (a i) (d i)) (delta lf t sh n k th a d) m n eq_refl LDL LX LRD FX NX DN HO q Hq) as (FQ & NQ).
      split; [exact FQ|]. unfold sh, nt. cbn [shape_b32 triples map fst snd grad_near]. change (length (@fb OP l)) with m. fold g n.
        change [(m, g)] with sh. destruct (Nat.ltb_spec q m); [exact NQ|]. destruct (Nat.ltb_spec q (m + n * m)); [exact NQ|lia].
    - (* hidden layer *)
      destruct HF as (LW & M1 & HF). pose proof (Forall_inv CN) as (CV & FW & FB). apply Forall_inv_tail in CN. cbn [fst snd] in CV, FW, FB. destruct HP as (TB & TW & HP).
      unfold sh, nt in HR, HT, LT, HS. cbn [shape_b32 triples map fst snd in_range] in HR. destruct HR as (WD & HC & HR).
      change (length (@fb OP l)) with m in *. set (g := @fact OP l) in *.
      destruct (layer_near l k xs rx th a d x LW M1 LX CV FW FB FX TB TW HX WD HC) as (zs & LO & LRO & FO & HL). fold n m g in LO, LRO, HL.
      set (os := @layer_f OP c VE 0 l xs) in *. set (ro := @layer_f opsR c exp 0 (real_layer l) rx) in *.
      cbn [shape_b32 triples map fst snd trainable] in HT. destruct HT as (GS & HT). change (g <> Softmax) in GS.
      cbn [shape_b32 triples map fst snd n_outputs] in LT. 
      cbn [shape_b32 triples map fst snd safe] in HS. change (length (@fb OP l)) with m in HS. fold g in HS. destruct HS as (HD & HO & HDot & HS).
      set (m2 := @fn_out OP l2) in *. change (length (@fb OP l2)) with m2 in *.
      set (th2 := fun q => th (m + n * m + q)%nat) in *. set (a2 := abs_act g m (abs_lin n m th a)) in *. set (d2 := low_act g m (abs_lin n m th a) (low_lin n m th d)) in *.
      set (k2 := (k + n + 1 + act_roundings g)%nat) in *. set (z := zf n m th x) in *.
      specialize (IH l2 k2 os ro th2 a2 d2 (act_math g m z) m). cbv zeta in IH. change (@F OP) with b32 in IH. change (@F opsR) with R in IH.
      destruct IH as (dl2 & w2 & rest & rdl2 & rw2 & rrest & E2 & RE2 & L2 & RL2 & N2 & SM2 & TG2 & LF2 & NF2).
      { exact LO. } { exact LRO. } { exact HF. } { exact CN. } { exact FO. } { exact HP. }
      { intros i Hi. destruct (HL i Hi) as (_ & _ & _ & D0 & AO & ER & _). split; [exact ER|]. split; [exact D0|exact AO]. }
      { exact HR. } { exact HT. } { exact LT. } { exact HS. }
      set (sh2 := shape_b32 (triples (l2 :: net))) in *. fold m2 in L2, RL2, N2.
      set (es := @mvm_f OP c dl2 (@rows OP m (length dl2) (fw l2)) f0). set (res := @mvm_f opsR c rdl2 (@rows opsR m (length rdl2) (map (@B2R 24 128) (@fw OP l2))) 0).
      set (dl := @deriv_f OP g os es). set (rdl := @deriv_f opsR g ro res).
      assert (EG : gs = (dl, @outer_f OP xs dl) :: (dl2, w2) :: rest).
      { unfold gs, nt. rewrite bp_f_step. cbv zeta. change (@layer_f OP c VE 0 l xs) with os. 
        match goal with |- match ?b with _ => _ end = _ => replace b with ((dl2, w2) :: rest) by (symmetry; exact E2) end. reflexivity. }
      assert (ERG : rgs = (rdl, @outer_f opsR rx rdl) :: (rdl2, rw2) :: rrest).
      { unfold rgs, nt. cbn [map]. rewrite bp_f_step. cbv zeta. change (@layer_f opsR c exp 0 (real_layer l) rx) with ro.
        match goal with |- match ?b with _ => _ end = _ => replace b with ((rdl2, rw2) :: rrest) by (symmetry; exact RE2) end. rewrite real_out. reflexivity. }
      assert (LES : length es = m) by exact (len_mvm OP c dl2 m (length dl2) (fw l2) f0).
      assert (LRES : length res = m) by exact (len_mvm opsR c rdl2 m (length rdl2) _ 0).
      assert (LDL : length dl = m) by (apply len_deriv; assumption).
      assert (LRD : length rdl = m) by (apply len_deriv_R; assumption).
      destruct HF as (LW2 & _ & _). fold m2 in LW2.
      pose proof (Forall_inv CN) as (_ & FW2 & _). cbn [fst snd] in FW2. destruct HP as (_ & TW2 & _). change (length (@fb OP l2)) with m2 in TW2.
      assert (DN : forall j, (j < m)%nat -> fin (nth j dl NZ) = true /\ is_near (delta lf t sh n k th a d j) (bv (nth j dl NZ)) (vec rdl j)).
      { intros j Hj. destruct (HL j Hj) as (FZ & EZ & FOj & D0 & AO & ER & OK). apply near_value in AO. destruct (HD j Hj) as (CD & CLR). specialize (HDot j Hj).
        assert (FLW : Forall (fun v => fin v = true) (slice (j * m2) m2 (@fw OP l2))).
        { apply Forall_forall. intros v Hv. rewrite Forall_forall in FW2. apply FW2. exact (in_slice _ _ _ _ Hv). }
        assert (LSL : length (slice (j * m2) m2 (@fw OP l2)) = m2) by (apply length_slice; rewrite LW2; nia).
        destruct (near_dot lm c dl2 (slice (j * m2) m2 (@fw OP l2)) (delta lf t sh2 m k2 th2 a2 d2) (vec rdl2)) as (FE & NE).
        - change (@F OP) with b32 in *. congruence.
        - apply Forall_forall. intros v Hv. destruct (In_nth _ _ NZ Hv) as (i & Hi & <-). apply N2. rewrite L2 in Hi. exact Hi.
        - exact FLW.
        - intros i Hi. rewrite L2 in Hi. apply N2. exact Hi.
        - rewrite L2. rewrite (dot_ext m2 _ (fun i => th2 (m2 + (j * m2 + i))%nat)); [exact HDot|].
          intros i Hi. rewrite nth_slice by exact Hi. symmetry. apply TW2. nia.
        - rewrite L2 in NE. rewrite (dot_ext m2 _ (fun i => th2 (m2 + (j * m2 + i))%nat)) in NE.
          2:{ intros i Hi. rewrite nth_slice by exact Hi. symmetry. apply TW2. nia. }
          assert (EE : nth j es NZ = @dot_f OP c dl2 (slice (j * m2) m2 (@fw OP l2)) NZ).
          { unfold es. rewrite L2. apply nth_mvm. exact Hj. }
          rewrite <- EE in FE, NE.
          assert (ERE : vec res j = sumf m2 (fun i => bv (nth i (slice (j * m2) m2 (@fw OP l2)) NZ) * vec rdl2 i)).
          { unfold res. rewrite mvm_R; [|exact (eq_trans (map_length _ _) (eq_trans LW2 (f_equal (Nat.mul m) (eq_sym RL2))))|exact Hj]. rewrite RL2.
            replace (if has_avx512 c then 0 else 0) with 0 by (destruct (has_avx512 c); reflexivity). rewrite Rplus_0_l. apply sumf_ext. intros i Hi. rewrite vbv, nth_slice by exact Hi. reflexivity. }
          assert (NE' : is_near (dot m2 (fun i => th2 (m2 + (j * m2 + i))%nat) (delta lf t sh2 m k2 th2 a2 d2)) (bv (nth j es NZ)) (vec res j)) by (rewrite ERE; exact NE).
          clear NE; rename NE' into NE.
          change (delta lf t ((m, g) :: sh2) n k th a d j) with (delta lf t sh n k th a d j) in CD.
          assert (ND : delta lf t sh n k th a d j = through g (out_near n m g k th a d j) (dot m2 (fun i => th2 (m2 + (j * m2 + i))%nat) (delta lf t sh2 m k2 th2 a2 d2))) by reflexivity.
          assert (CD' : cap (delta lf t sh n k th a d j) <= 2 ^ 127) by exact CD. clear CD; rename CD' into CD.
          rewrite ND in CD |- *. unfold dl, rdl.
          rewrite (nth_deriv g os es j (eq_trans LO (eq_sym LES)) (eq_ind_r (fun z => (j < z)%nat) Hj LES)), (vec_deriv g ro res j (eq_trans LRO (eq_sym LRES)) (eq_ind_r (fun z => (j < z)%nat) Hj LRES)), ER.
          apply (through_near lm g (out_near n m g k th a d j) _ (nth j es NZ) (nth j zs NZ) (nth j os NZ) (vec res j) (z j) _ (err (value (k + n + 1) (abs_lin n m th a j) (low_lin n m th d j)))); auto. }
      assert (NX : forall i, (i < n)%nat -> is_near (value k (a i) (d i)) (bv (nth i xs NZ)) (vec rx i)).
      { intros i Hi. destruct (HX i Hi) as (-> & _ & AP). apply near_value. exact AP. }
      exists dl, (@outer_f OP xs dl), ((dl2, w2) :: rest), rdl, (@outer_f opsR rx rdl), ((rdl2, rw2) :: rrest). split; [exact EG|]. split; [exact ERG|]. split; [exact LDL|]. split; [exact LRD|]. split; [exact DN|].
      assert (AW : forall j, (j < m)%nat -> away g (zf n m th x j)).
      { intros j Hj. destruct (HL j Hj) as (_ & EZ & _ & _ & (_ & EO) & _). destruct (HD j Hj) as (_ & CLR). exact (clear_away g m _ j _ _ _ _ EZ EO CLR). }
      split. { split; [exact AW|exact SM2]. }
      split. { exact TG2. }
      assert (NP : n_params sh n = (m + n * m + n_params sh2 m)%nat) by (unfold sh, nt; cbn [shape_b32 triples map fst snd n_params]; change (length (@fb OP l)) with m; reflexivity).
      assert (EF : @flat OP gs = (dl ++ @outer_f OP xs dl) ++ @flat OP ((dl2, w2) :: rest)) by (rewrite EG; reflexivity).
      assert (ERF : @flat opsR rgs = (rdl ++ @outer_f opsR rx rdl) ++ @flat opsR ((rdl2, rw2) :: rrest)) by (rewrite ERG; reflexivity).
      pose proof (len_block OP xs dl n m eq_refl LDL) as LB. pose proof (len_block opsR rx rdl n m LX LRD) as RLB. change (@F OP) with b32 in *. change (@F opsR) with R in *.
      rewrite E2 in LF2, NF2. rewrite RE2 in NF2. rewrite EF, ERF. split. { rewrite app_length, LB, LF2. symmetry. exact NP. }
      intros q Hq. rewrite NP in Hq. destruct (lt_dec q (m + n * m)) as [HQ|HQ].
      + destruct (block_near xs dl rx rdl (fun i => value k (a i) (d i)) (delta lf t sh n k th a d) m n eq_refl LDL LX LRD FX NX DN HO q HQ) as (FQ & NQ).
        rewrite app_nth1 by (rewrite LB; exact HQ). rewrite vec_app1 by (rewrite RLB; exact HQ). split; [exact FQ|].
          unfold sh, nt. cbn [shape_b32 triples map fst snd grad_near]. change (length (@fb OP l)) with m. fold g n.
          destruct (Nat.ltb_spec q m); [exact NQ|]. destruct (Nat.ltb_spec q (m + n * m)); [exact NQ|lia].
      + set (r := (q - (m + n * m))%nat). destruct (NF2 r ltac:(unfold r; lia)) as (FQ & NQ).
        assert (QE : q = (length (dl ++ @outer_f OP xs dl) + r)%nat) by (rewrite LB; unfold r; lia).
        assert (RQE : q = (length (rdl ++ @outer_f opsR rx rdl) + r)%nat) by (rewrite RLB; unfold r; lia).
        assert (N1 : nth q ((dl ++ @outer_f OP xs dl) ++ @flat OP ((dl2, w2) :: rest)) NZ = nth r (@flat OP ((dl2, w2) :: rest)) NZ) by (rewrite QE at 1; apply app_nth2_plus).
        assert (N3 : vec ((rdl ++ @outer_f opsR rx rdl) ++ @flat opsR ((rdl2, rw2) :: rrest)) q = vec (@flat opsR ((rdl2, rw2) :: rrest)) r) by (rewrite RQE at 1; apply vec_app2).
        rewrite N1, N3. split; [exact FQ|]. unfold sh, nt. cbn [shape_b32 triples map fst snd grad_near]. change (length (@fb OP l)) with m. fold g n.
        destruct (Nat.ltb_spec q m); [lia|]. destruct (Nat.ltb_spec q (m + n * m)); [lia|]. exact NQ.
  Qed.
End Back.
