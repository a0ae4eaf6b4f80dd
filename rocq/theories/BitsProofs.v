(** BitsProofs.v -- float-level meaning of the linear part and of the activation functions *)
From Coq Require Import List Arith ZArith Lia Bool Permutation.
From Verif Require Import Base BaseProofs Ops Mem MemProofs Kernels KernelProofs Activation ActivationProofs
  Loss Neuralnet ForwardProofs SpecBits.
Import ListNotations.

Lemma fold_left_map_comm A B C (f : A -> C -> A) (g : B -> C) l : forall a,
  fold_left f (map g l) a = fold_left (fun a b => f a (g b)) l a.
Proof. induction l; intros; simpl; auto. Qed.
Lemma fold_left_ext A B (f g : A -> B -> A) l : (forall a b, f a b = g a b) -> forall a, fold_left f l a = fold_left g l a.
Proof. intros H. induction l; intros; simpl; auto. rewrite H. auto. Qed.
Lemma nth_skipn_d A n (l : list A) k d : nth k (skipn n l) d = nth (n + k) l d.
Proof. revert l. induction n; intros l; simpl; auto. destruct l; simpl; auto. destruct k; auto. Qed.

Section Bits.
Context {FO : fops}.
Variable c : cfg.
Variable vexp : F -> F.

(** ** the linear part, builds without FMA *)
Section Lin.
Hypothesis noFMA : cfg_fma c = false.
Hypothesis mul1 : forall x w : F, feq x f1 = true -> fmul x w = w.

Lemma vmm_step_noFMA ys x row : length row = length ys ->
  vmm_step c ys (x, row) = map2 (fun y w => if feq x f0 then y else fadd y (fmul x w)) ys row.
Proof.
  intros L. unfold vmm_step, ftrue. destruct (feq x f0) eqn:E0; simpl.
  - apply nth_error_ext. intros k. rewrite nth_error_map2.
    destruct (nth_error ys k) eqn:Ek; auto. destruct (nth_error row k) eqn:Er; auto.
    apply nth_error_None in Er. apply nth_error_lt in Ek. lia.
  - destruct (feq x f1) eqn:E1.
    + apply map2_ext. intros y w. rewrite (mul1 x w) by auto. reflexivity.
    + apply nth_error_ext. intros k. rewrite nth_error_mapi2, nth_error_map2.
      destruct (nth_error ys k); auto. destruct (nth_error row k); auto.
      unfold madd. rewrite noFMA. reflexivity.
Qed.

Lemma nth_map2_d A B C (f : A -> B -> C) l1 l2 k d1 d2 d : k < length l1 -> k < length l2 ->
  nth k (map2 f l1 l2) d = f (nth k l1 d1) (nth k l2 d2).
Proof.
  revert l2 k. induction l1; intros [|b l2] [|k] H1 H2; simpl in *; try lia; auto. apply IHl1; lia.
Qed.

Lemma vmm_f_lin m : forall xs w b, length b = m -> length w = length xs * m ->
  vmm_f c m w b xs = lin m w b xs.
Proof.
  assert (G : forall xs w b, length b = m -> length w = length xs * m -> forall j, j < m ->
    nth j (vmm_f c m w b xs) f0 = lin_col m w b xs j).
  { unfold vmm_f, lin_col. induction xs as [|x xs IH]; intros w b Lb Lw j Hj; [reflexivity|].
    cbn [length rows combine fold_left seq] in *. cbn [nth]. rewrite vmm_step_noFMA by (rewrite firstn_length; lia).
    assert (LB : length (map2 (fun y w0 => if feq x f0 then y else fadd y (fmul x w0)) b (firstn m w)) = m).
    { rewrite length_map2, firstn_length. lia. }
    rewrite IH; auto; [|rewrite skipn_length; lia].
    rewrite nth_map2_d with (d1 := f0) (d2 := f0) by (rewrite ?firstn_length; lia).
    rewrite <- seq_shift. rewrite fold_left_map_comm.
    assert (E0 : nth j (firstn m w) f0 = nth j w f0).
    { rewrite <- (firstn_skipn m w) at 2. rewrite app_nth1; auto. rewrite firstn_length; lia. }
    rewrite E0.
    apply fold_left_ext. intros acc i.
    rewrite nth_skipn_d. replace (S i * m + j) with (m + (i * m + j)) by lia. reflexivity. }
  intros xs w b Lb Lw. unfold lin. apply nth_error_ext. intros k.
  assert (LL : length (vmm_f c m w b xs) = m) by (apply length_vmm_f; auto).
  destruct (Nat.lt_ge_cases k m) as [Hk|Hk].
  - rewrite (nth_error_nth' _ f0) by lia. rewrite G by auto.
    symmetry. rewrite nth_error_map. rewrite (nth_error_nth' _ 0) by (rewrite seq_length; lia). rewrite seq_nth by lia. reflexivity.
  - rewrite (proj2 (nth_error_None _ _)) by lia. symmetry. apply nth_error_None. rewrite map_length, seq_length. lia.
Qed.
End Lin.

(** ** the linear part, all builds *)
Lemma nth_mapi2_d A B C (f : nat -> A -> B -> C) d1 d2 d : forall l1 l2 k s, k < length l1 -> k < length l2 ->
  nth k (mapi2_from s f l1 l2) d = f (s + k) (nth k l1 d1) (nth k l2 d2).
Proof.
  induction l1; intros [|b l2] [|k] s H1 H2; simpl in *; try lia; auto. { f_equal. lia. }
  rewrite IHl1 by lia. f_equal. lia.
Qed.
Lemma column_S m w n j : column m w (S n) j = nth j w f0 :: column m (skipn m w) n j.
Proof.
  unfold column. simpl. f_equal. rewrite <- seq_shift, map_map. apply map_ext. intros i.
  rewrite nth_skipn_d. f_equal. lia.
Qed.
Lemma vmm_f_lin_rel m : (forall x w : F, feq x f1 = true -> fmul x w = w) -> forall xs w b, length b = m -> length w = length xs * m ->
  lin_rel (cfg_fma c) m w b xs (vmm_f c m w b xs).
Proof.
  intros mul1 xs w b Lb Lw. split; [apply length_vmm_f; auto|]. revert w b Lb Lw. unfold vmm_f.
  induction xs as [|x xs IH]; intros w b Lb Lw j Hj; [constructor|].
  cbn [length rows combine fold_left] in *. rewrite column_S. cbn [combine].
  assert (LR : length (firstn m w) = length b) by (rewrite firstn_length; lia).
  assert (E0 : nth j (firstn m w) f0 = nth j w f0).
  { rewrite <- (firstn_skipn m w) at 2. rewrite app_nth1; auto. lia. }
  pose proof (length_vmm_step c b x (firstn m w) LR) as LS.
  specialize (IH (skipn m w) (vmm_step c b (x, firstn m w)) ltac:(lia)
    ltac:(rewrite skipn_length; lia) j Hj).
  assert (ES : (feq x f0 = true /\ nth j (vmm_step c b (x, firstn m w)) f0 = nth j b f0) \/
    (feq x f0 = false /\ nth j (vmm_step c b (x, firstn m w)) f0 = fadd (nth j b f0) (fmul x (nth j w f0))) \/
    (cfg_fma c = true /\ feq x f0 = false /\ nth j (vmm_step c b (x, firstn m w)) f0 = ffma (nth j w f0) x (nth j b f0))).
  { unfold vmm_step, ftrue. destruct (feq x f0) eqn:Z0; simpl; [left; auto|right].
    destruct (feq x f1) eqn:Z1.
    - left. split; auto. rewrite nth_map2_d with (d1 := f0) (d2 := f0) by lia. rewrite E0, mul1 by auto. auto.
    - unfold mapi2. rewrite nth_mapi2_d with (d1 := f0) (d2 := f0) by lia. rewrite E0. unfold madd.
      destruct (cfg_fma c); simpl; [|left; auto]. destruct (j <? _); [right|left]; auto. }
  destruct ES as [[Z E]|[[Z E]|[Z [Z' E]]]]; rewrite E in IH.
  - apply col_zero; auto.
  - apply col_plain; auto.
  - apply col_fused; auto.
Qed.

(** ** activation functions *)
Lemma elem_mapi s v (P : nat -> bool) zs : elem s v zs (mapi (fun i x => if P i then v x else s x) zs).
Proof.
  unfold elem, mapi. generalize 0. induction zs; intros k; simpl; constructor; auto. destruct (P k); auto.
Qed.
Lemma elem_reg_map b h a lv ls zs : elem ls lv zs (reg_map c b h a lv ls zs).
Proof. unfold reg_map. apply elem_mapi with (P := fun i => b && vreg _ 16 (length zs) i). Qed.

Lemma sum_perm l l' a : is_sum l a -> Permutation l l' -> is_sum l' a.
Proof.
  intros H P. destruct H as [|x|l1 l2 l a b H1 H2 Q].
  - apply Permutation_nil in P. subst. constructor.
  - apply Permutation_length_1_inv in P. subst. constructor.
  - eapply sum_add; eauto. eapply Permutation_trans; eauto.
Qed.
Lemma sum_app l1 l2 a b : is_sum l1 a -> is_sum l2 b -> is_sum (l1 ++ l2) (fadd a b).
Proof. intros. eapply sum_add; eauto. Qed.
Lemma sum_fold : forall l l0 a, is_sum l0 a -> is_sum (l0 ++ l) (fold_left fadd l a).
Proof.
  induction l as [|x l IH]; intros l0 a H; simpl; [rewrite app_nil_r; auto|].
  change (x :: l) with ([x] ++ l). rewrite app_assoc. apply IH. apply sum_app; auto. constructor.
Qed.

(** lane k of the accumulator sums the list [nth k ls] *)
Lemma lanes_sum : forall xs (ls : list (list F)) (acc : list F),
  Forall2 is_sum ls acc -> length xs = length acc ->
  exists ls', Forall2 is_sum ls' (map2 fadd acc xs) /\ Permutation (concat ls ++ xs) (concat ls').
Proof.
  induction xs as [|x xs IH]; intros ls acc H L.
  - destruct acc; simpl in L; [|lia]. inversion H; subst. exists []. split; [constructor|auto].
  - destruct acc as [|a acc]; simpl in L; [lia|]. inversion H as [|l a' ls0 acc' Hl Hls]; subst.
    destruct (IH ls0 acc Hls) as (ls' & A & B); [lia|].
    exists ((l ++ [x]) :: ls'). split.
    + simpl. constructor; auto. apply sum_app; auto. constructor.
    + simpl. rewrite <- !app_assoc. apply Permutation_app_head. simpl.
      eapply Permutation_trans; [apply Permutation_sym, Permutation_middle|]. apply perm_skip. exact B.
Qed.
Lemma chunk_sums_lanes es : forall q i ls acc, Forall2 is_sum ls acc -> length acc = 8 -> i + 8 * q <= length es ->
  exists ls', Forall2 is_sum ls' (chunk_sums q i es acc) /\ Permutation (concat ls ++ slice i (8 * q) es) (concat ls') /\
    length (chunk_sums q i es acc) = 8.
Proof.
  induction q as [|q IH]; intros i ls acc H L B; simpl chunk_sums.
  - exists ls. split; auto. split; auto. simpl. unfold slice. simpl. rewrite app_nil_r. auto.
  - assert (LS : length (slice i 8 es) = 8) by (apply length_slice; lia).
    destruct (lanes_sum (slice i 8 es) ls acc H ltac:(lia)) as (ls1 & H1 & P1).
    destruct (IH (i + 8) ls1 (map2 fadd acc (slice i 8 es)) H1) as (ls2 & H2 & P2 & L2).
    { rewrite length_map2. lia. } { lia. }
    exists ls2. split; auto. split; auto.
    replace (8 * S q) with (8 + 8 * q) by lia. rewrite slice_app_add, app_assoc.
    eapply Permutation_trans; [|exact P2]. apply Permutation_app_tail. exact P1.
Qed.
Lemma app_swap (a b d : list F) : Permutation (a ++ b ++ d) (b ++ a ++ d).
Proof. rewrite !app_assoc. apply Permutation_app_tail, Permutation_app_comm. Qed.
Lemma hsum_is_sum ls acc : Forall2 is_sum ls acc -> length acc = 8 -> is_sum (concat ls) (hsum256_ps_avx acc).
Proof.
  intros H L. destruct acc as [|v0 [|v1 [|v2 [|v3 [|v4 [|v5 [|v6 [|v7 [|]]]]]]]]]; simpl in L; try lia.
  repeat match goal with H : Forall2 _ _ _ |- _ => inversion H; clear H; subst end.
  simpl. eapply sum_add; [eapply sum_app|eapply sum_app|]; [eapply sum_app; eassumption|eapply sum_app; eassumption|
    eapply sum_app; eassumption|eapply sum_app; eassumption|].
  rewrite app_nil_r. rewrite <- !app_assoc.
  match goal with |- Permutation (?a0 ++ ?a4 ++ ?a1 ++ ?a5 ++ ?a2 ++ ?a6 ++ ?a3 ++ ?a7) _ =>
    rename a0 into l0, a1 into l1, a2 into l2, a3 into l3, a4 into l4, a5 into l5, a6 into l6, a7 into l7 end.
  apply Permutation_app_head.
  rewrite (app_swap l4 l1). apply Permutation_app_head.
  rewrite (app_swap l5 l2), (app_swap l4 l2). apply Permutation_app_head.
  rewrite (app_swap l6 l3), (app_swap l5 l3), (app_swap l4 l3). apply Permutation_app_head.
  auto.
Qed.
Lemma sum_f_is_sum a es : is_sum es (sum_f c a es).
Proof.
  unfold sum_f. destruct (has_avx2 c).
  - set (n := length es). set (pro := pro_f c a n). set (q := (n - pro) / 8).
    assert (Hp : pro <= n) by apply pro_f_le.
    assert (Hq : 8 * q <= n - pro) by (apply Nat.mul_div_le; lia).
    assert (H0 : Forall2 is_sum (repeat [] 8) (repeat f0 8)) by (repeat constructor).
    destruct (chunk_sums_lanes es q pro (repeat [] 8) (repeat f0 8) H0) as (ls & H1 & P1 & L1).
    { reflexivity. } { fold n. lia. }
    pose proof (hsum_is_sum _ _ H1 L1) as H2. simpl in P1.
    apply (sum_perm _ (slice pro (8 * q) es)) in H2; [|apply Permutation_sym; exact P1].
    rewrite <- (firstn_skipn (pro + 8 * q) es) at 1. apply sum_fold.
    rewrite <- firstn_slice_app. apply sum_app; auto.
    apply (sum_fold (firstn pro es) [] f0). constructor.
  - apply (sum_fold es [] f0). constructor.
Qed.

Lemma max_f_in xs : xs <> [] -> In (max_f xs) xs.
Proof.
  unfold max_f. destruct xs as [|x xs]; [congruence|]. intros _. simpl hd. simpl tl. revert x.
  induction xs as [|y xs IH]; intros x; [left; reflexivity|].
  change (In (fold_left (fun mv z => if fgt z mv then z else mv) xs (if fgt y x then y else x)) (x :: y :: xs)).
  destruct (fgt y x).
  - right. apply IH.
  - destruct (IH x) as [E|E]; [left; auto|right; right; auto].
Qed.

Lemma max_f_max xs : strict_order -> forall z, In z xs -> flt (max_f xs) z = false.
Proof.
  intros (IR & TR). unfold max_f. destruct xs as [|x xs]; [intros z []|]. simpl hd. simpl tl.
  assert (G : forall l x m, m = fold_left (fun mv z => if fgt z mv then z else mv) l x ->
    (m = x \/ flt x m = true) /\ forall z, In z l -> flt m z = false).
  { induction l as [|y l IH]; intros v m Hm; [split; [left; exact Hm|intros z []]|].
    change (m = fold_left (fun mv z => if fgt z mv then z else mv) l (if flt v y then y else v)) in Hm.
    destruct (IH _ _ Hm) as [A B]. destruct (flt v y) eqn:E.
    - split; [right; destruct A as [->|A]; eauto|]. intros z [<-|Hz]; [|auto].
      destruct (flt m y) eqn:Q; [|reflexivity]. destruct A as [->|A]; [congruence|].
      rewrite <- (IR y). symmetry. eauto.
    - split; [exact A|]. intros z [<-|Hz]; [|auto].
      destruct (flt m y) eqn:Q; [|reflexivity]. rewrite <- E. destruct A as [->|A]; [congruence|]. symmetry. eauto. }
  destruct (G xs x _ eq_refl) as [A B]. intros z [<-|Hz]; [|auto].
  set (m := fold_left _ _ _) in *. destruct (flt m x) eqn:Q; [|reflexivity].
  destruct A as [A|A]; [rewrite A in Q; rewrite <- (IR x); symmetry; exact Q|]. rewrite <- (IR m). symmetry. eauto.
Qed.

Lemma act_f_rel g a xs : xs <> [] -> act_rel vexp g xs (act_f c vexp g a xs).
Proof.
  intros Hne. destruct g; simpl; try reflexivity.
  - apply elem_reg_map.
  - exists (max_f xs), (exps_f c vexp a xs), (sum_f c a (exps_f c vexp a xs)).
    split; [apply max_f_in; auto|]. split; [apply max_f_max|]. split; [|split; [apply sum_f_is_sum|reflexivity]].
    unfold exps_f. apply elem_mapi with (s := fun x => fexp (fsub x (max_f xs))) (v := fun x => vexp (fsub x (max_f xs)))
      (P := fun i => has_avx2 c && vreg (pro_f c a (length xs)) 8 (length xs) i).
  - apply elem_reg_map.
  - apply elem_reg_map.
Qed.

(** ** the forward pass *)
Definition triples (net : list flayer) : list (act * list F * list F) := map (fun l => (fact l, fw l, fb l)) net.
Fixpoint fits_f (n : nat) (net : list flayer) : Prop :=
  match net with
  | [] => True
  | l :: r => length (fw l) = n * fn_out l /\ 1 <= fn_out l /\ fits_f (fn_out l) r
  end.
Lemma net_holds_fits_f m : forall ls net n, net_holds c m n ls net -> fits_f n net.
Proof.
  induction ls as [|l ls IH]; intros [|f net] n H; simpl in *; try tauto.
  destruct H as [(A & B & C & D & E & H0) H]. split; auto. split; [lia|]. rewrite C in H. eauto.
Qed.
Lemma not_nil A (l : list A) : 1 <= length l -> l <> [].
Proof. destruct l; simpl; [lia|congruence]. Qed.

Section Fwd.
Hypothesis mul1 : forall x w : F, feq x f1 = true -> fmul x w = w.
Lemma layer_f_rel a l xs : length (fw l) = length xs * fn_out l -> 1 <= fn_out l ->
  exists zs, lin_rel (cfg_fma c) (fn_out l) (fw l) (fb l) xs zs /\ act_rel vexp (fact l) zs (layer_f c vexp a l xs).
Proof.
  intros L1 L2. exists (vmm_f c (fn_out l) (fw l) (fb l) xs).
  assert (LL : length (vmm_f c (fn_out l) (fw l) (fb l) xs) = fn_out l) by (apply length_vmm_f; auto).
  split; [apply vmm_f_lin_rel; auto|]. apply act_f_rel. apply not_nil. lia.
Qed.
Lemma forward_f_rel : forall net ao xs, fits_f (length xs) net ->
  net_rel vexp (cfg_fma c) (triples net) xs (forward_f c vexp net ao xs).
Proof.
  induction net as [|l net IH]; intros ao xs H; [reflexivity|]. destruct H as (L1 & L2 & H).
  destruct net as [|l2 net].
  - destruct (layer_f_rel ao l xs L1 L2) as (zs & A & B). simpl. exists zs, (layer_f c vexp ao l xs).
    split; [exact A|]. split; auto.
  - destruct (layer_f_rel 0 l xs L1 L2) as (zs & A & B).
    exists zs, (layer_f c vexp 0 l xs). split; [exact A|]. split; [exact B|].
    apply IH. rewrite length_layer_f; auto.
Qed.
Lemma forward_f_nofma : cfg_fma c = false -> forall net ao xs, fits_f (length xs) net ->
  net_rel_nofma vexp (triples net) xs (forward_f c vexp net ao xs).
Proof.
  intros noFMA.
  assert (G : forall a l xs, length (fw l) = length xs * fn_out l -> 1 <= fn_out l ->
    act_rel vexp (fact l) (lin (fn_out l) (fw l) (fb l) xs) (layer_f c vexp a l xs)).
  { intros a l xs L1 L2. unfold layer_f. rewrite vmm_f_lin by auto. apply act_f_rel. apply not_nil.
    unfold lin. rewrite map_length, seq_length. auto. }
  induction net as [|l net IH]; intros ao xs H; [reflexivity|]. destruct H as (L1 & L2 & H).
  destruct net as [|l2 net].
  - simpl. exists (layer_f c vexp ao l xs). split; [apply G; auto|auto].
  - exists (layer_f c vexp 0 l xs). split; [apply G; auto|]. apply IH. rewrite length_layer_f; auto.
Qed.
End Fwd.
End Bits.
