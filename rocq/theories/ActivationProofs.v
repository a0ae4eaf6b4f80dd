(** ActivationProofs.v -- what the memory-level activation code of Activation.v computes *)
From Coq Require Import List Arith ZArith Lia Bool.
From Verif Require Import Base BaseProofs Ops Mem MemProofs Kernels KernelProofs Activation.
Import ListNotations.
Local Open Scope mem_scope.

Section ActivationProofs.
Context {FO : fops}.
Variable c : cfg.
Variable vexp : F -> F.

(** index where the unaligned prologue stops, for an array of n floats at address a *)
Definition al (a : Z) (i : nat) : bool := Z.eqb (Z.modulo (a + 4 * Z.of_nat i) (align_size c)) 0.
Fixpoint pro_from (fuel : nat) (a : Z) (n i : nat) : nat :=
  match fuel with
  | O => i
  | S k => if al a i then i else if i <? n then pro_from k a n (i + 1) else i
  end.
Definition pro_f (a : Z) (n : nat) : nat := pro_from (S n) a n 0.

Lemma pro_from_spec : forall fuel a n i, i <= n -> n - i < fuel ->
  i <= pro_from fuel a n i <= n /\ (pro_from fuel a n i < n -> al a (pro_from fuel a n i) = true).
Proof.
  induction fuel; intros a n i Hi Hf; [lia|]. simpl.
  destruct (al a i) eqn:E.
  - split; [lia|auto].
  - destruct (Nat.ltb_spec i n).
    + destruct (IHfuel a n (i + 1)) as [H1 H2]; try lia. split; [lia|auto].
    + split; lia.
Qed.
Lemma pro_f_le a n : pro_f a n <= n.
Proof. apply (@pro_from_spec (S n) a n 0); lia. Qed.
Lemma pro_f_al a n : pro_f a n < n -> al a (pro_f a n) = true.
Proof. apply (@pro_from_spec (S n) a n 0); lia. Qed.
Lemma pro_f_aligned a n : al a 0 = true -> pro_f a n = 0.
Proof. intros H. unfold pro_f. simpl. rewrite H. reflexivity. Qed.

Lemma al_aligned8 m p i : has_avx c = true -> nth_error m (blk p) <> None ->
  al (addr m p) i = true -> aligned_to 8 m (p +! i) = true.
Proof.
  intros HA HN H. unfold aligned_to. rewrite addr_padd by auto.
  unfold al in H. apply Z.eqb_eq in H. apply Z.eqb_eq.
  unfold align_size, has_avx in *. destruct (cfg_isa c); try discriminate; auto.
  apply Z.mod_divide in H; [|lia]. apply Z.mod_divide; [lia|].
  eapply Z.divide_trans; [|apply H]. exists 2%Z. reflexivity.
Qed.
Lemma aligned8_al_avx m p : align_size c = 32%Z -> aligned_to 8 m p = true -> al (addr m p) 0 = true.
Proof.
  unfold al, aligned_to. intros ->. rewrite Z.add_0_r. auto.
Qed.

Lemma is_aligned_al m p i : nth_error m (blk p) <> None ->
  is_aligned c (p +! i) m = Ok (al (addr m p) i, m).
Proof. intros H. unfold is_aligned. rewrite addr_padd by auto. reflexivity. Qed.

Lemma prologue_from_st (body : nat -> M unit) (st : nat -> mem) n p a :
  (forall i, nth_error (st i) (blk p) <> None) -> (forall i, addr (st i) p = a) ->
  (forall i, i < n -> body i (st i) = Ok (tt, st (i + 1))) ->
  forall fuel i, i <= n -> n - i < fuel ->
  prologue_loop c fuel n p i body (st i) = Ok (pro_from fuel a n i, st (pro_from fuel a n i)).
Proof.
  intros HN HA HB. induction fuel; intros i Hi Hf; [lia|]. simpl.
  erewrite bind_ok by (apply is_aligned_al; auto). rewrite HA.
  destruct (al a i); simpl; auto.
  destruct (Nat.ltb_spec i n); auto.
  erewrite bind_ok by (apply HB; auto). apply IHfuel; lia.
Qed.

(** in the vector region starting at [pro] with chunks of w *)
Definition vreg (pro w n i : nat) : bool := (pro <=? i) && (i <? pro + w * ((n - pro) / w)).

Lemma vreg_chunk pro w n i k :
  1 <= w -> pro <= i -> Nat.divide w (i - pro) -> i + w <= n -> i <= k < i + w -> vreg pro w n k = true.
Proof.
  intros Hw Hp Hd Hi Hk. unfold vreg. apply andb_true_iff. split.
  - apply Nat.leb_le; lia.
  - apply Nat.ltb_lt. pose proof (@divide_bound w (i - pro) (n - pro) ((n-pro)/w) Hw Hd ltac:(lia) eq_refl). lia.
Qed.
Lemma vreg_before pro w n k : k < pro -> vreg pro w n k = false.
Proof. intros H. unfold vreg. rewrite (proj2 (Nat.leb_gt _ _)); auto. Qed.
Lemma vreg_after pro w n i k : 1 <= w -> pro <= i -> Nat.divide w (i - pro) -> i <= n -> n < i + w -> i <= k -> vreg pro w n k = false.
Proof.
  intros Hw Hp [q Hq] Hi Hn Hk. unfold vreg.
  assert ((n - pro) / w = q).
  { symmetry. apply Nat.div_unique with (n - pro - w * q); nia. }
  rewrite H. replace (k <? pro + w * q) with false. { apply andb_false_r. }
  symmetry. apply Nat.ltb_ge. nia.
Qed.

Lemma al_next m p n i : valid m p n -> aligned_to 8 m (p +! i) = true -> aligned_to 8 m (p +! i +! 8) = true.
Proof.
  intros HV HA. apply aligned_to_padd; auto; try lia.
  - exact (valid_some HV).
  - apply Nat.divide_refl.
Qed.
Arguments al_next {m p n i}.

Section OneArray.
Variables (m : mem) (p : ptr) (old : list F).
Let n := length old.
Hypothesis Hold : holds m p old.

Lemma vec2x8_ok lane new i :
  length new = n -> i + 16 <= n -> slice i 16 new = map lane (slice i 16 old) ->
  aligned_to 8 m (p +! i) = true ->
  vec2x8 lane p i (writem m p (firstn i new)) = Ok (tt, writem m p (firstn (i + 16) new)).
Proof.
  intros HN Hi HS HA. unfold vec2x8.
  assert (HV : valid m p n) by (apply holds_valid; auto).
  assert (HA2 : aligned_to 8 m (p +! i +! 8) = true).
  { exact (al_next HV HA). }
  assert (S1 : slice i 8 new = map lane (slice i 8 old)).
  { pose proof (f_equal (slice 0 8) HS) as E. rewrite slice_map in E. rewrite !slice_slice in E by lia. rewrite Nat.add_0_r in E. exact E. }
  assert (S2 : slice (i + 8) 8 new = map lane (slice (i + 8) 8 old)).
  { pose proof (f_equal (slice 8 8) HS) as E. rewrite slice_map in E. rewrite !slice_slice in E by lia. exact E. }
  erewrite bind_ok by (rewrite loadv_al_ok by (rewrite aligned_to_writem; auto); apply loadv_rest with (old := old); auto; unfold n in *; lia).
  assert (HR : holds (writem m p (firstn i new)) (p +! i) (skipn i old)).
  { apply holds_rest; auto; unfold n in *; lia. }
  erewrite bind_ok.
  2:{ rewrite loadv_al_ok by (rewrite aligned_to_writem; auto).
      apply loadv_holds with (xs := skipn i old); auto. rewrite skipn_length. unfold n in *; lia. }
  assert (E8 : slice 8 8 (skipn i old) = slice (i + 8) 8 old).
  { unfold slice. rewrite skipn_skipn. reflexivity. }
  rewrite E8. rewrite <- S1, <- S2.
  assert (L1 : length (slice i 8 new) = 8) by (apply length_slice; lia).
  assert (L2 : length (slice (i+8) 8 new) = 8) by (apply length_slice; lia).
  erewrite bind_ok.
  2:{ rewrite storev_al_ok by (rewrite L1, aligned_to_writem; auto).
      apply storev_next with (n := n); rewrite ?L1; auto; lia. }
  rewrite L1. rewrite storev_al_ok by (rewrite L2, aligned_to_writem; auto).
  rewrite padd_padd.
  replace (i + 16) with (i + 8 + length (slice (i+8) 8 new)) by lia.
  apply storev_next with (n := n); rewrite ?L2; auto; lia.
Qed.

Lemma scalar1_ok f new i :
  length new = n -> i < n -> (forall x, nth_error old i = Some x -> nth_error new i = Some (f x)) ->
  scalar1 f p i (writem m p (firstn i new)) = Ok (tt, writem m p (firstn (i + 1) new)).
Proof.
  intros HN Hi HS. destruct (@nth_error_ex _ old i) as [x Hx]; [auto|].
  apply map1_scalar with (old := old) (x := x); auto.
Qed.

(** prologue (optional) + w-wide loop + scalar loop computing [new] *)
Lemma vec_code_ok (b haspro : bool) w (s : nat -> M unit) (v : nat -> M unit) new a :
  length new = n -> 1 <= w ->
  addr m p = a ->
  let pro := if haspro then pro_f a n else 0 in
  (forall i, i < n -> (b = true -> vreg pro w n i = false) ->
       s i (writem m p (firstn i new)) = Ok (tt, writem m p (firstn (i + 1) new))) ->
  (b = true -> forall i, pro <= i -> Nat.divide w (i - pro) -> i + w <= n ->
       v i (writem m p (firstn i new)) = Ok (tt, writem m p (firstn (i + w) new))) ->
  (i <- when b (i <- (if haspro then prologue_loop c (S n) n p 0 s else ret 0) ;; loop_le w n i v) 0 ;;
   loop1 n i s) m = Ok (tt, writem m p new).
Proof.
  intros HN Hw Ha pro HS HV.
  set (st := fun i => writem m p (firstn i new)).
  assert (S0 : st 0 = m) by (unfold st; simpl; apply writem_nil).
  assert (Sn : st n = writem m p new) by (unfold st; rewrite <- HN, firstn_all; auto).
  assert (HVal : valid m p n) by (apply holds_valid; auto).
  assert (Hpro : pro <= n). { unfold pro. destruct haspro; [apply pro_f_le|lia]. }
  destruct b; unfold when.
  - assert (E1 : (if haspro then prologue_loop c (S n) n p 0 s else ret 0) m = Ok (pro, st pro)).
    { unfold pro. destruct haspro.
      - rewrite <- S0 at 1.
        pose proof (@prologue_from_st (fun i => if i <? pro_f a n then s i else ret tt)
                       (fun i => if i <=? pro_f a n then st i else st (pro_f a n)) n p a) as _.
        (* the prologue only runs below pro *)
        assert (G : forall fuel i, i <= pro_f a n -> n - i < fuel -> pro_from fuel a n i = pro_f a n ->
                  prologue_loop c fuel n p i s (st i) = Ok (pro_f a n, st (pro_f a n))).
        { assert (Hnn : forall i, nth_error (st i) (blk p) <> None).
          { intros i. unfold st. apply valid_some with n. apply valid_writem; auto.
            eapply valid_le; eauto. rewrite firstn_length; lia. }
          induction fuel as [|fuel IHf]; intros i Hi Hf E; [lia|]. simpl.
          erewrite bind_ok by (apply is_aligned_al; auto).
          replace (addr (st i) p) with a by (unfold st; rewrite addr_writem; auto).
          simpl in E. destruct (al a i); simpl.
          + subst i. reflexivity.
          + destruct (Nat.ltb_spec i n); simpl.
            * assert (i < pro_f a n).
              { destruct (@pro_from_spec fuel a n (i+1)); lia. }
              erewrite bind_ok. 2:{ apply HS; auto. intros _. apply vreg_before. unfold pro. lia. }
              apply IHf; auto; lia.
            * subst i. reflexivity. }
        apply G; auto; lia.
      - unfold ret. rewrite S0. auto. }
    assert (E2 : exists i', (i <- (if haspro then prologue_loop c (S n) n p 0 s else ret 0);; loop_le w n i v) m = Ok (i', st i')
                  /\ pro <= i' <= n /\ n < i' + w /\ Nat.divide w (i' - pro)).
    { erewrite bind_ok by eauto.
      destruct (@loop_le_st _ w n v st (fun i => pro <= i /\ Nat.divide w (i - pro)) pro) as (i' & A & B & C & D1 & D2); auto.
      - split; auto. rewrite Nat.sub_diag. apply Nat.divide_0_r.
      - intros i [I1 I2] I3. split; [apply HV; auto|]. split; [lia|].
        replace (i + w - pro) with (i - pro + w) by lia. apply Nat.divide_add_r; auto. apply Nat.divide_refl.
      - exists i'. auto. }
    destruct E2 as (i' & E2 & B & C & D).
    erewrite bind_ok by eauto. rewrite <- Sn. apply loop1_st; [lia|].
    intros j Hj. apply HS; [lia|]. intros _. eapply vreg_after with (i := i'); eauto; lia.
  - erewrite bind_ok by reflexivity. rewrite <- Sn. rewrite <- S0 at 1. apply loop1_st; [lia|].
    intros j Hj. apply HS; [lia|]. discriminate.
Qed.
End OneArray.

(** new contents: vector lane function in the vector region, scalar function elsewhere *)
Definition reg_map (b haspro : bool) (a : Z) (lv ls : F -> F) (xs : list F) : list F :=
  let n := length xs in
  let pro := if haspro then pro_f a n else 0 in
  mapi (fun i x => if b && vreg pro 16 n i then lv x else ls x) xs.

Lemma length_reg_map b h a lv ls xs : length (reg_map b h a lv ls xs) = length xs.
Proof. apply length_mapi. Qed.
Lemma reg_map_same b h a f g xs : (forall x, f x = g x) -> reg_map b h a f g xs = map g xs.
Proof.
  intros H. unfold reg_map. rewrite <- mapi_const. apply mapi_ext. intros.
  destruct (_ && _); auto.
Qed.

Lemma reg_map_ok (b haspro : bool) lv ls m p xs :
  holds m p xs -> (b = true -> has_avx c = true) ->
  (haspro = false -> b = true -> 16 <= length xs -> aligned_to 8 m p = true) ->
  (i <- when b (i <- (if haspro then prologue_loop c (S (length xs)) (length xs) p 0 (scalar1 ls p) else ret 0) ;;
                loop_le 16 (length xs) i (vec2x8 lv p)) 0 ;;
   loop1 (length xs) i (scalar1 ls p)) m = Ok (tt, writem m p (reg_map b haspro (addr m p) lv ls xs)).
Proof.
  intros H Hb Hal. set (n := length xs) in *. set (a := addr m p).
  apply vec_code_ok with (a := a); auto; try lia.
  - apply length_reg_map.
  - intros i Hi Hv. apply scalar1_ok with (old := xs); auto.
    + apply length_reg_map.
    + intros x Hx. unfold reg_map. rewrite nth_error_mapi, Hx. simpl.
      destruct b; simpl; auto. rewrite Hv; auto.
  - intros Hbt i Hp Hd Hi.
    assert (HV : valid m p n) by (apply holds_valid; auto).
    apply vec2x8_ok with (old := xs); auto.
    + apply length_reg_map.
    + unfold reg_map. apply slice_mapi; auto. intros k x Hk Hx. rewrite Hbt. simpl. fold n.
      rewrite vreg_chunk with (i := i); auto. lia.
    + fold n in Hp, Hd, Hi. destruct haspro.
      * replace (p +! i) with (p +! pro_f a n +! (i - pro_f a n)) by (rewrite padd_padd; f_equal; lia).
        apply aligned_to_padd; try lia.
        -- exact (valid_some HV).
        -- apply al_aligned8; auto. { eapply valid_some; eauto. } apply pro_f_al. lia.
        -- destruct Hd as [q Hq]. exists (2 * q). lia.
      * apply aligned_to_padd; try lia.
        -- eapply valid_some; eauto.
        -- apply Hal; auto. lia.
        -- destruct Hd as [q Hq]. exists (2 * q). lia.
Qed.

Lemma has_avx2_avx : has_avx2 c = true -> has_avx c = true.
Proof. unfold has_avx, has_avx2. destruct (cfg_isa c); auto. Qed.
Lemma has_avx512_avx : has_avx512 c = true -> has_avx c = true.
Proof. unfold has_avx, has_avx512. destruct (cfg_isa c); auto. Qed.

Definition relu_f (a : Z) := reg_map (has_avx c) true a relu_v relu_s.
Definition sigmoid_f (a : Z) := reg_map (has_avx2 c) true a (sigmoid_v vexp) sigmoid_s.
Definition tanh_f := reg_map (has_avx2 c) false 0 (tanh_v vexp) ftanh.

Lemma relu_ok m p xs : holds m p xs ->
  relu c (length xs) p m = Ok (tt, writem m p (relu_f (addr m p) xs)).
Proof.
  intros H. apply (@reg_map_ok (has_avx c) true relu_v relu_s m p xs); auto; discriminate.
Qed.
Lemma sigmoid_ok m p xs : holds m p xs ->
  sigmoid c vexp (length xs) p m = Ok (tt, writem m p (sigmoid_f (addr m p) xs)).
Proof.
  intros H. apply (@reg_map_ok (has_avx2 c) true (sigmoid_v vexp) sigmoid_s m p xs); auto using has_avx2_avx; discriminate.
Qed.
Lemma tanh_ok m p xs : holds m p xs -> (has_avx2 c = true -> 16 <= length xs -> aligned_to 8 m p = true) ->
  tanh_act c vexp (length xs) p m = Ok (tt, writem m p (tanh_f xs)).
Proof.
  intros H HA. pose proof (@reg_map_ok (has_avx2 c) false (tanh_v vexp) ftanh m p xs H) as G.
  unfold tanh_act. unfold tanh_f.
  replace (reg_map (has_avx2 c) false 0 (tanh_v vexp) ftanh xs) with (reg_map (has_avx2 c) false (addr m p) (tanh_v vexp) ftanh xs) by reflexivity.
  rewrite <- G; auto using has_avx2_avx.
Qed.

Lemma map_loop_ok f m p xs : holds m p xs ->
  loop1 (length xs) 0 (scalar1 f p) m = Ok (tt, writem m p (map f xs)).
Proof.
  intros H. pose proof (@reg_map_ok false false f f m p xs H) as G. unfold when in G.
  rewrite reg_map_same in G by auto. rewrite <- G; try discriminate. reflexivity.
Qed.

(** ** softmax *)
Definition max_f (xs : list F) : F :=
  fold_left (fun mv x => if fgt x mv then x else mv) (tl xs) (hd f0 xs).
Lemma softmax_max_ok m p xs : holds m p xs -> forall fuel j mv, length xs - j < fuel ->
  softmax_max fuel (length xs) p j mv m =
  Ok (fold_left (fun mv x => if fgt x mv then x else mv) (skipn j xs) mv, m).
Proof.
  intros H. induction fuel; intros j mv Hf; [lia|]. simpl.
  destruct (Nat.ltb_spec j (length xs)).
  - destruct (@nth_error_ex _ xs j) as [x Hx]; auto.
    erewrite bind_ok by (eapply load_holds; eauto). rewrite IHfuel by lia. f_equal. f_equal.
    assert (E : skipn j xs = x :: skipn (j + 1) xs).
    { clear - Hx. revert j Hx. induction xs as [|y xs IH]; intros [|j] Hx; simpl in *; try discriminate.
      - congruence.
      - apply IH; auto. }
    rewrite E. reflexivity.
  - rewrite skipn_all2 by lia. reflexivity.
Qed.

Definition exps_f (a : Z) (xs : list F) : list F :=
  let n := length xs in
  let mv := max_f xs in
  mapi (fun i x => if has_avx2 c && vreg (pro_f a n) 8 n i then vexp (fsub x mv) else fexp (fsub x mv)) xs.

(** chunk sums of the vector accumulator *)
Fixpoint chunk_sums (q i : nat) (es : list F) (acc : list F) : list F :=
  match q with O => acc | S k => chunk_sums k (i + 8) es (map2 fadd acc (slice i 8 es)) end.
Definition sum_f (a : Z) (es : list F) : F :=
  let n := length es in
  if has_avx2 c then
    let pro := pro_f a n in
    let q := (n - pro) / 8 in
    let s1 := fold_left fadd (firstn pro es) f0 in
    let s2 := fadd s1 (hsum256_ps_avx (chunk_sums q pro es (repeat f0 8))) in
    fold_left fadd (skipn (pro + 8 * q) es) s2
  else fold_left fadd es f0.
Definition softmax_f (a : Z) (xs : list F) : list F :=
  let es := exps_f a xs in
  let s := sum_f a es in map (fun e => fdiv e s) es.

Lemma chunk_sums_snoc es : forall q i acc, chunk_sums (S q) i es acc = map2 fadd (chunk_sums q i es acc) (slice (i + 8 * q) 8 es).
Proof.
  induction q; intros i acc.
  - simpl. rewrite Nat.add_0_r. reflexivity.
  - replace (chunk_sums (S (S q)) i es acc) with (chunk_sums (S q) (i + 8) es (map2 fadd acc (slice i 8 es))) by reflexivity.
    rewrite IHq. simpl chunk_sums. f_equal. f_equal. lia.
Qed.

Lemma length_exps a xs : length (exps_f a xs) = length xs.
Proof. apply length_mapi. Qed.
Lemma length_softmax a xs : length (softmax_f a xs) = length xs.
Proof. unfold softmax_f. rewrite map_length. apply length_exps. Qed.

Lemma fold_slice_snoc A (f : A -> F -> A) es pro i s e : pro <= i -> nth_error es i = Some e ->
  fold_left f (slice pro (i + 1 - pro) es) s = f (fold_left f (slice pro (i - pro) es) s) e.
Proof.
  intros Hi He. replace (i + 1 - pro) with (i - pro + 1) by lia.
  rewrite slice_app_add, fold_left_app. replace (pro + (i - pro)) with i by lia.
  rewrite slice_one with (x := e) by auto. reflexivity.
Qed.

Lemma softmax_exp1_ok m p xs mv es i sum e x :
  holds m p xs -> length es = length xs -> nth_error xs i = Some x -> nth_error es i = Some e ->
  e = fexp (fsub x mv) ->
  softmax_exp1 p mv i sum (writem m p (firstn i es)) = Ok (fadd sum e, writem m p (firstn (i + 1) es)).
Proof.
  intros H HL Hx He ->. unfold softmax_exp1.
  erewrite bind_ok by (eapply load_rest with (old := xs); eauto).
  cbv beta zeta. erewrite bind_ok by (eapply store_next with (n := length xs); eauto using holds_valid).
  reflexivity.
Qed.

Lemma exps_scalar a xs i x : nth_error xs i = Some x ->
  (has_avx2 c = true -> vreg (pro_f a (length xs)) 8 (length xs) i = false) ->
  nth_error (exps_f a xs) i = Some (fexp (fsub x (max_f xs))).
Proof.
  intros Hx Hv. unfold exps_f. rewrite nth_error_mapi, Hx. simpl.
  destruct (has_avx2 c); simpl; auto. rewrite Hv; auto.
Qed.

Lemma softmax_pass2 m p xs n : holds m p xs -> length xs = n ->
  let a := addr m p in let es := exps_f a xs in let mv := max_f xs in
  (let_pair (j, sum) <-
    when (has_avx2 c)
      (let_pair (j, sum) <- softmax_prologue c (S n) n p mv 0 f0 ;;
       let_pair (j, sum_v) <-
         for_loop_acc (S n) (fun j => j + 8 <=? n) 8 j (repeat f0 8) (fun j sum_v =>
           x <- loadv_al 8 (p +! j) ;;
           let e := map (fun x => vexp (fsub x mv)) x in
           storev_al (p +! j) e ;;; ret (map2 fadd sum_v e)) ;;
       ret (j, fadd sum (hsum256_ps_avx sum_v))) (0, f0) ;;
   for_loop_acc (S n) (fun j => j <? n) 1 j sum (softmax_exp1 p mv)) m
  = Ok ((n, sum_f a es), writem m p es).
Proof.
  intros H HL a es mv.
  assert (Hes : length es = n) by (unfold es; rewrite length_exps; auto).
  assert (HVal : valid m p n) by (subst n; apply holds_valid; auto).
  set (st := fun i => writem m p (firstn i es)).
  assert (S0 : st 0 = m) by (unfold st; simpl; apply writem_nil).
  assert (Sn : st n = writem m p es) by (unfold st; rewrite <- Hes, firstn_all; auto).
  assert (Hnn : forall i, nth_error (st i) (blk p) <> None).
  { intros i. unfold st. apply valid_some with n. apply valid_writem; auto.
    eapply valid_le; eauto. rewrite firstn_length; lia. }
  (* tail loop *)
  assert (Tail : forall j s0, j <= n -> (forall k, j <= k -> has_avx2 c = true -> vreg (pro_f a n) 8 n k = false) ->
     for_loop_acc (S n) (fun j => j <? n) 1 j s0 (softmax_exp1 p mv) (st j)
     = Ok ((n, fold_left fadd (skipn j es) s0), writem m p es)).
  { intros j s0 Hj Hv.
    destruct (@for_loop_acc_st _ F (fun j => j <? n) 1 (softmax_exp1 p mv) st
                (fun i => fold_left fadd (slice j (i - j) es) s0) (fun i => j <= i <= n) n) with (fuel := S n) (i := j)
       as (i' & E & C & I & _); try lia.
    - intros i Hi. apply Nat.ltb_lt in Hi. auto.
    - intros i Hi Hc. apply Nat.ltb_lt in Hc. split; [|lia].
      destruct (@nth_error_ex _ xs i) as [x Hx]; [lia|].
      assert (He : nth_error es i = Some (fexp (fsub x mv))).
      { apply exps_scalar; auto. intros Ha. rewrite HL. apply Hv; auto. lia. }
      rewrite fold_slice_snoc with (e := fexp (fsub x mv)) by (auto; lia).
      apply softmax_exp1_ok with (xs := xs) (x := x); auto. lia.
    - rewrite Nat.sub_diag in E. simpl fold_left in E at 1.
      replace (slice j 0 es) with (@nil F) in E by reflexivity. simpl fold_left in E at 1.
      rewrite E. apply Nat.ltb_ge in C. assert (i' = n) by lia. subst i'.
      rewrite Sn. f_equal. f_equal. f_equal. f_equal. unfold slice. rewrite firstn_all2; auto.
      rewrite skipn_length. lia. }
  unfold sum_f. rewrite Hes. destruct (has_avx2 c) eqn:E2; unfold when.
  2:{ erewrite bind_ok by reflexivity. cbv beta iota. rewrite <- S0 at 1.
      rewrite Tail; auto; try lia; try discriminate. }
  set (pro := pro_f a n). set (q := (n - pro) / 8).
  assert (Hpro : pro <= n) by apply pro_f_le.
  (* prologue *)
  assert (P : softmax_prologue c (S n) n p mv 0 f0 m = Ok ((pro, fold_left fadd (firstn pro es) f0), st pro)).
  { assert (G : forall fuel i, i <= pro -> n - i < fuel -> pro_from fuel a n i = pro ->
       softmax_prologue c fuel n p mv i (fold_left fadd (firstn i es) f0) (st i) =
       Ok ((pro, fold_left fadd (firstn pro es) f0), st pro)).
    { induction fuel as [|fuel IHf]; intros i Hi Hf E; [lia|]. simpl.
      erewrite bind_ok by (apply is_aligned_al; auto).
      replace (addr (st i) p) with a by (unfold st; rewrite addr_writem; auto).
      simpl in E. destruct (al a i); simpl.
      + subst i. reflexivity.
      + destruct (Nat.ltb_spec i n); simpl.
        * assert (i < pro). { destruct (@pro_from_spec fuel a n (i+1)); lia. }
          destruct (@nth_error_ex _ xs i) as [x Hx]; [lia|].
          assert (He : nth_error es i = Some (fexp (fsub x mv))).
          { apply exps_scalar; auto. intros Ha. rewrite HL. apply vreg_before; auto. }
          erewrite bind_ok. 2:{ apply softmax_exp1_ok with (xs := xs) (x := x); eauto. lia. }
          rewrite <- IHf with (i := i + 1); auto; try lia.
          f_equal. rewrite <- firstn_slice_app. rewrite fold_left_app.
          rewrite slice_one with (x := fexp (fsub x mv)) by auto. reflexivity.
        * subst i. reflexivity. }
    rewrite <- S0. apply (G (S n) 0); auto; lia. }
  (* vector loop *)
  assert (V : for_loop_acc (S n) (fun j => j + 8 <=? n) 8 pro (repeat f0 8) (fun j sum_v =>
           x <- loadv_al 8 (p +! j) ;;
           let e := map (fun x => vexp (fsub x mv)) x in
           storev_al (p +! j) e ;;; ret (map2 fadd sum_v e)) (st pro)
       = Ok ((pro + 8 * q, chunk_sums q pro es (repeat f0 8)), st (pro + 8 * q))).
  { destruct (@for_loop_acc_st _ (list F) (fun j => j + 8 <=? n) 8 (fun j sum_v =>
           x <- loadv_al 8 (p +! j) ;;
           let e := map (fun x => vexp (fsub x mv)) x in
           storev_al (p +! j) e ;;; ret (map2 fadd sum_v e)) st
           (fun i => chunk_sums ((i - pro) / 8) pro es (repeat f0 8))
           (fun i => pro <= i <= n /\ Nat.divide 8 (i - pro)) n) with (fuel := S n) (i := pro) as (i' & E & C & I & _); try lia.
    - intros i Hi. apply Nat.leb_le in Hi. lia.
    - intros i [Hi [k Hk]] Hc. apply Nat.leb_le in Hc.
      assert (HA : aligned_to 8 m (p +! i) = true).
      { replace (p +! i) with (p +! pro +! (i - pro)) by (rewrite padd_padd; f_equal; lia).
        apply aligned_to_padd; try lia.
        - exact (valid_some HVal).
        - apply al_aligned8; auto using has_avx2_avx. { eapply valid_some; eauto. } apply pro_f_al. unfold pro in *. lia.
        - exists k; auto. }
      assert (HS : slice i 8 es = map (fun x => vexp (fsub x mv)) (slice i 8 xs)).
      { unfold es, exps_f. apply slice_mapi; [lia|]. intros j x Hj Hx. rewrite E2. simpl. rewrite HL.
        rewrite vreg_chunk with (i := i); auto; try lia. exists k; auto. }
      split.
      + erewrite bind_ok.
        2:{ rewrite loadv_al_ok by (unfold st; rewrite aligned_to_writem; auto).
            apply loadv_rest with (old := xs); auto; lia. }
        cbv beta zeta. rewrite <- HS.
        assert (L : length (slice i 8 es) = 8) by (apply length_slice; lia).
        erewrite bind_ok.
        2:{ rewrite storev_al_ok by (rewrite L, aligned_to_writem; auto).
            apply storev_next with (n := n); rewrite ?L; auto; lia. }
        rewrite L. unfold ret. f_equal. f_equal.
        rewrite Hk. replace (i + 8 - pro) with ((k + 1) * 8) by lia.
        rewrite !Nat.div_mul by lia. rewrite Nat.add_1_r, chunk_sums_snoc. f_equal. f_equal. lia.
      + split; [lia|]. exists (k + 1). lia.
    - split; [lia|]. rewrite Nat.sub_diag. apply Nat.divide_0_r.
    - rewrite Nat.sub_diag in E. change (chunk_sums (0 / 8) pro es (repeat f0 8)) with (repeat f0 8) in E.
      rewrite E. apply Nat.leb_gt in C. destruct I as [I [k Hk]].
      assert (q = k). { unfold q. symmetry. apply Nat.div_unique with (n - pro - 8 * k); lia. }
      assert (i' = pro + 8 * q) by lia. rewrite H1. f_equal. f_equal. f_equal. f_equal.
      replace (pro + 8 * q - pro) with (q * 8) by lia. rewrite Nat.div_mul; lia. }
  erewrite bind_ok.
  2:{ erewrite bind_ok by apply P. cbv beta iota. erewrite bind_ok by apply V. cbv beta iota. reflexivity. }
  cbv beta iota. rewrite Tail; auto.
  - unfold q. pose proof (@div_mul_le (n - pro) 8). lia.
  - intros k Hk _. unfold q in Hk. pose proof (@div_mul_le (n - pro) 8 ltac:(lia)).
    eapply vreg_after with (i := pro + 8 * ((n - pro) / 8)); try lia.
    exists ((n - pro)/8). unfold pro. lia.
Qed.

Lemma bind_assoc2 A B C D (X : M (A * B)) (f : A -> B -> M C) (K : C -> M D) m :
  bind X (fun '(j, s) => bind (f j s) K) m = bind (bind X (fun '(j, s) => f j s)) K m.
Proof. unfold bind. destruct (X m) as [[[j s] m']|]; reflexivity. Qed.

Lemma softmax_ok m p xs : holds m p xs -> 1 <= length xs ->
  softmax c vexp (length xs) p m = Ok (tt, writem m p (softmax_f (addr m p) xs)).
Proof.
  intros H Hn. unfold softmax.
  destruct xs as [|x0 xr] eqn:EX; [simpl in Hn; lia|]. rewrite <- EX in *.
  erewrite bind_ok by (apply load_holds0 with (xs := xr); rewrite <- EX; auto).
  erewrite bind_ok by (apply softmax_max_ok; auto; lia).
  replace (fold_left _ (skipn 1 xs) x0) with (max_f xs) by (rewrite EX; reflexivity).
  set (n := length xs) in *. set (a := addr m p). set (es := exps_f a xs).
  pose proof (@softmax_pass2 m p xs n H eq_refl) as P2. cbv zeta in P2.
  eapply eq_trans; [apply bind_assoc2|].
  erewrite bind_ok by apply P2. cbv beta iota. clear P2.
  fold a. fold es. set (s := sum_f a es).
  assert (Hes : length es = n) by apply length_exps.
  assert (HVal : valid m p n) by (apply holds_valid; auto).
  assert (HVe : valid m p (length es)) by (rewrite Hes; auto).
  assert (He : holds (writem m p es) p es) by (apply holds_writem_same; auto).
  set (new := map (fun x => fdiv x s) es).
  assert (HN : length new = length es) by (unfold new; apply map_length).
  rewrite <- Hes.
  replace (softmax_f a xs) with new by reflexivity.
  rewrite <- (@writem_writem_same _ m p es new) by auto.
  apply vec_code_ok with (haspro := true) (a := a) (old := es); auto; try lia.
  - rewrite addr_writem. auto.
  - intros i Hi _. apply scalar1_ok with (old := es); auto. intros x Hx. unfold new. rewrite nth_error_map, Hx. reflexivity.
  - intros Ha i Hp Hd Hi. apply map1_al with (old := es); auto.
    + unfold new. apply slice_map.
    + rewrite aligned_to_writem.
      replace (p +! i) with (p +! pro_f a (length es) +! (i - pro_f a (length es))) by (rewrite padd_padd; f_equal; lia).
      apply aligned_to_padd; try lia; auto.
      * exact (valid_some HVal).
      * apply al_aligned8; auto. { eapply valid_some; eauto. } apply pro_f_al. lia.
Qed.

(** ** All activation functions *)
Definition act_f (g : act) (a : Z) (xs : list F) : list F :=
  match g with
  | Softplus => map softplus_s xs
  | Softsign => map softsign_s xs
  | Hard_sigmoid => map hard_sigmoid_s xs
  | Exponential => map fexp xs
  | Linear => xs
  | Relu => relu_f a xs
  | Softmax => softmax_f a xs
  | Sigmoid => sigmoid_f a xs
  | Tanh => tanh_f xs
  end.

Lemma length_act_f g a xs : length (act_f g a xs) = length xs.
Proof.
  destruct g; simpl; rewrite ?map_length; auto; try apply length_reg_map.
  apply length_softmax.
Qed.

Definition act_pre (g : act) (m : mem) (p : ptr) (n : nat) : Prop :=
  match g with
  | Tanh => has_avx2 c = true -> 16 <= n -> aligned_to 8 m p = true
  | _ => True
  end.

Lemma activation_func_ok g m p xs : holds m p xs -> 1 <= length xs -> act_pre g m p (length xs) ->
  activation_func c vexp g (length xs) p m = Ok (tt, writem m p (act_f g (addr m p) xs)).
Proof.
  intros H Hn Hp. destruct g; simpl.
  - apply map_loop_ok; auto.
  - apply map_loop_ok; auto.
  - apply map_loop_ok; auto.
  - apply map_loop_ok; auto.
  - unfold linear, ret. rewrite writem_holds_id; auto.
  - apply relu_ok; auto.
  - apply softmax_ok; auto.
  - apply sigmoid_ok; auto.
  - apply tanh_ok; auto.
Qed.

(** ** Derivatives *)
Definition act_d (g : act) (a : F) : F :=
  match g with
  | Softplus => softplus_d a
  | Softsign => softsign_d a
  | Hard_sigmoid => hard_sigmoid_d a
  | Exponential => a
  | Linear => f1
  | Softmax => f1
  | Relu => relu_d a
  | Sigmoid => sigmoid_d a
  | Tanh => tanh_d a
  end.
Definition deriv_f (g : act) (actv ar : list F) : list F :=
  match g with
  | Linear | Softmax => ar
  | _ => map2 (fun x a => fmul x (act_d g a)) ar actv
  end.
Lemma length_deriv_f g actv ar : length actv = length ar -> length (deriv_f g actv ar) = length ar.
Proof. intros H. destruct g; simpl; auto; rewrite length_map2; lia. Qed.

Definition deriv_pre (g : act) (m : mem) (pa pr : ptr) (n : nat) : Prop :=
  match g with
  | Relu | Sigmoid | Tanh => has_avx c = true -> 16 <= n -> aligned_to 8 m pa = true /\ aligned_to 8 m pr = true
  | _ => True
  end.

Hypothesis mulC : forall a b, fmul a b = fmul b a.

Section TwoArrays.
Variables (m : mem) (pa pr : ptr) (actv ar : list F).
Let n := length ar.
Hypothesis Ha : holds m pa actv.
Hypothesis Hr : holds m pr ar.
Hypothesis HLen : length actv = n.
Hypothesis Hdis : disjoint pr n pa n.
Variable d : F -> F.
Let new := map2 (fun x a => fmul x (d a)) ar actv.

Lemma dnew_length : length new = n.
Proof. unfold new. rewrite length_map2. unfold n in *. lia. Qed.

Lemma dscalar1_ok i : i < n ->
  dscalar1 d pa pr i (writem m pr (firstn i new)) = Ok (tt, writem m pr (firstn (i + 1) new)).
Proof.
  intros Hi. pose proof dnew_length as HN.
  destruct (@nth_error_ex _ ar i) as [x Hx]; auto.
  destruct (@nth_error_ex _ actv i) as [a Hxa]; [lia|].
  unfold dscalar1.
  erewrite bind_ok by (eapply load_holds; eauto; apply holds_b with (old := ar); auto).
  erewrite bind_ok by (eapply load_rest with (old := ar); eauto).
  apply store_next with (n := n); auto using holds_valid.
  - apply holds_valid; auto.
  - unfold new. rewrite nth_error_map2, Hx, Hxa. reflexivity.
Qed.

Lemma dvec2x8_ok i : i + 16 <= n ->
  aligned_to 8 m (pa +! i) = true -> aligned_to 8 m (pr +! i) = true ->
  dvec2x8 d pa pr i (writem m pr (firstn i new)) = Ok (tt, writem m pr (firstn (i + 16) new)).
Proof.
  intros Hi A1 A2. pose proof dnew_length as HN.
  assert (HV : valid m pr n) by (apply holds_valid; auto).
  assert (HVa : valid m pa n) by (rewrite <- HLen; apply holds_valid; auto).
  assert (A3 : aligned_to 8 m (pa +! i +! 8) = true).
  { exact (al_next HVa A1). }
  assert (A4 : aligned_to 8 m (pr +! i +! 8) = true).
  { exact (al_next HV A2). }
  assert (HB : holds (writem m pr (firstn i new)) pa actv) by (apply holds_b with (old := ar); auto).
  assert (HR : holds (writem m pr (firstn i new)) (pr +! i) (skipn i ar)).
  { apply holds_rest; auto; unfold n in *; lia. }
  unfold dvec2x8.
  erewrite bind_ok by (rewrite loadv_al_ok by (rewrite aligned_to_writem; auto); apply loadv_holds with (xs := actv); auto; lia).
  erewrite bind_ok by (rewrite loadv_al_ok by (rewrite aligned_to_writem; auto); rewrite padd_padd; apply loadv_holds with (xs := actv); auto; lia).
  erewrite bind_ok by (rewrite loadv_al_ok by (rewrite aligned_to_writem; auto); apply loadv_rest with (old := ar); auto; unfold n in *; lia).
  erewrite bind_ok.
  2:{ rewrite loadv_al_ok by (rewrite aligned_to_writem; auto).
      apply loadv_holds with (xs := skipn i ar); auto. rewrite skipn_length. unfold n in *; lia. }
  assert (E8 : slice 8 8 (skipn i ar) = slice (i + 8) 8 ar).
  { unfold slice. rewrite skipn_skipn. reflexivity. }
  rewrite E8.
  assert (HS : forall j, j + 8 <= n -> map2 (fun a x => fmul (d a) x) (slice j 8 actv) (slice j 8 ar) = slice j 8 new).
  { intros j Hj. unfold new. rewrite slice_map2 by (unfold n in *; lia). rewrite map2_swap.
    apply map2_ext. intros; apply mulC. }
  rewrite !HS by lia.
  assert (L1 : length (slice i 8 new) = 8) by (apply length_slice; lia).
  assert (L2 : length (slice (i+8) 8 new) = 8) by (apply length_slice; lia).
  erewrite bind_ok.
  2:{ rewrite storev_al_ok by (rewrite L1, aligned_to_writem; auto).
      apply storev_next with (n := n); rewrite ?L1; auto; lia. }
  rewrite L1. rewrite storev_al_ok by (rewrite L2, aligned_to_writem; auto).
  rewrite padd_padd.
  replace (i + 16) with (i + 8 + length (slice (i+8) 8 new)) by lia.
  apply storev_next with (n := n); rewrite ?L2; auto; lia.
Qed.

Lemma dvec_loops_ok :
  (has_avx c = true -> 16 <= n -> aligned_to 8 m pa = true /\ aligned_to 8 m pr = true) ->
  dvec_loops c d n pa pr m = Ok (tt, writem m pr new).
Proof.
  intros HA. pose proof dnew_length as HN.
  assert (HV : valid m pr n) by (apply holds_valid; auto).
  assert (HVa : valid m pa n) by (rewrite <- HLen; apply holds_valid; auto).
  apply vec_code_ok with (haspro := false) (a := addr m pr) (old := ar); auto; try lia.
  - intros i Hi _. apply dscalar1_ok; auto.
  - intros Hb i _ Hd Hi. fold n in Hi. destruct HA as [A1 A2]; auto; [lia|].
    assert (Nat.divide 8 i) by (destruct Hd as [q Hq]; exists (2 * q); lia).
    apply dvec2x8_ok; auto; apply aligned_to_padd; auto; try lia; eapply valid_some; eauto.
Qed.
Lemma dscalar_loop_ok : loop1 n 0 (dscalar1 d pa pr) m = Ok (tt, writem m pr new).
Proof.
  pose proof dnew_length as HN.
  replace m with (writem m pr (firstn 0 new)) at 1 by apply writem_nil.
  replace (writem m pr new) with (writem m pr (firstn n new)) by (rewrite <- HN, firstn_all; auto).
  apply (@loop1_st _ n (dscalar1 d pa pr) (fun i => writem m pr (firstn i new))); [lia|].
  intros. apply dscalar1_ok; lia.
Qed.
End TwoArrays.

Lemma activation_derivative_ok g m pa pr actv ar :
  holds m pa actv -> holds m pr ar -> length actv = length ar ->
  disjoint pr (length ar) pa (length ar) -> deriv_pre g m pa pr (length ar) ->
  activation_derivative_of c g (length ar) pa pr m = Ok (tt, writem m pr (deriv_f g actv ar)).
Proof.
  intros Ha Hr HL HD HP. destruct g; simpl.
  - apply dscalar_loop_ok; auto.
  - apply dscalar_loop_ok; auto.
  - apply dscalar_loop_ok; auto.
  - apply dscalar_loop_ok with (d := fun a => a); auto.
  - unfold linear_derivative, ret. rewrite writem_holds_id; auto.
  - apply dvec_loops_ok; auto.
  - unfold softmax_derivative, ret. rewrite writem_holds_id; auto.
  - apply dvec_loops_ok; auto.
  - apply dvec_loops_ok; auto.
Qed.

End ActivationProofs.
