(** ForwardProofs.v -- neuralnet_predict computes the functional forward pass *)
From Coq Require Import List Arith ZArith Lia Bool.
From Verif Require Import Base BaseProofs Ops Mem MemProofs Kernels KernelProofs Activation ActivationProofs Loss Neuralnet NetKernels.
Import ListNotations.
Local Open Scope mem_scope.

Section ForwardProofs.
Context {FO : fops}.
Variable c : cfg.
Variable vexp : F -> F.
Hypothesis mulC : forall a b, fmul a b = fmul b a.

(** numbers of one layer: weights (row i = weights of input i), bias, activation *)
Record flayer := { fw : list F; fb : list F; fact : act }.
Definition fn_out (l : flayer) := length (fb l).

(** the layer output, for an output array at address [a] *)
Definition layer_f (a : Z) (l : flayer) (xs : list F) : list F :=
  act_f c vexp (fact l) a (vmm_f c (fn_out l) (fw l) (fb l) xs).

(** outputs of all layers; addrs are the addresses of the output arrays *)
Fixpoint acts_f (net : list flayer) (addrs : list Z) (xs : list F) : list (list F) :=
  match net, addrs with
  | l :: r, a :: ar => let ys := layer_f a l xs in ys :: acts_f r ar ys
  | _, _ => []
  end.

Lemma length_layer_f a l xs : length (fw l) = length xs * fn_out l -> length (layer_f a l xs) = fn_out l.
Proof. intros. unfold layer_f. rewrite length_act_f. apply length_vmm_f; auto. Qed.

(** the region of a layer's parameters is disjoint from n floats at p *)
Definition off_params (p : ptr) (n : nat) (l : layer) : Prop :=
  disjoint p n (weight l) (n_input l * n_output l) /\ disjoint p n (bias l) (n_output l).

(** the memory holds the numbers of a layer with n inputs *)
Definition layer_holds (m : mem) (n : nat) (l : layer) (f : flayer) : Prop :=
  n_input l = n /\ 1 <= n_output l /\ n_output l = fn_out f /\ l_act l = fact f /\
  length (fw f) = n * fn_out f /\
  holds m (weight l) (fw f) /\ holds m (bias l) (fb f) /\ kal c (n_output l) m (bias l).

Fixpoint fwd_pre (m : mem) (ls : list layer) (net : list flayer) (a : ptr) (n : nat) (ps : list ptr) : Prop :=
  match ls, net, ps with
  | [], [], [] => True
  | l :: ls', f :: net', p :: ps' =>
      layer_holds m n l f /\
      valid m p (n_output l) /\ kal c (n_output l) m p /\ act_pre c (l_act l) m p (n_output l) /\
      disjoint p (n_output l) a n /\ Forall (off_params p (n_output l)) ls /\
      fwd_pre m ls' net' p (n_output l) ps'
  | _, _, _ => False
  end.

Lemma act_pre_writem g m p xs q n : act_pre c g (writem m p xs) q n <-> act_pre c g m q n.
Proof. destruct g; simpl; rewrite ?aligned_to_writem; tauto. Qed.

Lemma layer_holds_writem m p xs n l f :
  valid m p (length xs) -> off_params p (length xs) l -> layer_holds m n l f -> layer_holds (writem m p xs) n l f.
Proof.
  intros V [D1 D2] (A & B & C & D & E & G & H & K). unfold layer_holds.
  split; [exact A|]. split; [exact B|]. split; [exact C|]. split; [exact D|]. split; [exact E|].
  split; [|split].
  - apply holds_writem_disjoint; auto. rewrite E, <- C, <- A. auto.
  - apply holds_writem_disjoint; auto. fold (fn_out f). rewrite <- C. auto.
  - apply kal_writem; auto.
Qed.

Lemma fwd_pre_writem m q xs : forall ls net a n ps,
  valid m q (length xs) -> Forall (off_params q (length xs)) ls ->
  fwd_pre m ls net a n ps -> fwd_pre (writem m q xs) ls net a n ps.
Proof.
  induction ls as [|l ls IH]; intros [|f net] a n [|p ps] V O H; simpl in *; auto.
  destruct H as (A & B & C & D & E & G & H). inversion O; subst.
  split. { apply layer_holds_writem; auto. }
  split. { apply valid_writem; auto. }
  split. { apply kal_writem; auto. }
  split. { apply act_pre_writem; auto. }
  split; auto.
Qed.

Definition writes (m : mem) (l : list (ptr * list F)) : mem :=
  fold_left (fun m pv => writem m (fst pv) (snd pv)) l m.

(** what the rest of the proof needs of vector_matrix_multiply *)
Definition vmm_spec (VMM : nat -> nat -> ptr -> ptr -> ptr -> ptr -> M unit) : Prop :=
  forall mm pw pb pin py m ws bs xs,
  holds mm pw ws -> holds mm pb bs -> holds mm pin xs -> valid mm py m ->
  length bs = m -> length ws = length xs * m ->
  disjoint py m pw (length ws) -> disjoint py m pb m -> disjoint py m pin (length xs) ->
  kal c m mm py -> kal c m mm pb ->
  VMM (length xs) m pw pb pin py mm = Ok (tt, writem mm py (vmm_f c m ws bs xs)).

Lemma vmm_builtin : vmm_spec (vector_matrix_multiply c).
Proof. unfold vmm_spec. intros. apply vector_matrix_multiply_ok; auto. Qed.

Lemma forward_with_ok VMM : vmm_spec VMM -> forall ls net a n ps m xs,
  fwd_pre m ls net a n ps -> holds m a xs -> length xs = n ->
  forward_with c vexp VMM ls (a :: ps) m =
  Ok (tt, writes m (combine ps (acts_f net (map (addr m) ps) xs))).
Proof.
  intros HK. induction ls as [|l ls IH]; intros net a n ps m xs H Ha Hn.
  - simpl. destruct net, ps; simpl in H; (reflexivity || tauto).
  - destruct net as [|f net], ps as [|p ps]; simpl in H; try tauto.
    destruct H as ((Hi & Ho1 & Ho & Hact & Lw & Hw & Hb & Kb) & V & Kp & Ap & Dpa & Off & Rest).
    pose proof (Forall_inv Off) as [Ow Ob].
    simpl forward_with.
    erewrite bind_ok.
    2:{ rewrite Hi, <- Hn. apply HK with (ws := fw f) (bs := fb f) (xs := xs); auto.
        - subst n. rewrite Lw. fold (fn_out f). auto.
        - rewrite Lw, <- Ho, <- Hi. auto.
        - rewrite Hn. auto. }
    set (ys0 := vmm_f c (n_output l) (fw f) (fb f) xs).
    assert (L0 : length ys0 = n_output l).
    { unfold ys0. apply length_vmm_f; auto. rewrite Lw, Ho, Hn. reflexivity. }
    assert (V0 : valid m p (length ys0)) by (rewrite L0; auto).
    erewrite bind_ok.
    2:{ rewrite <- L0. apply activation_func_ok with (xs := ys0).
        - apply holds_writem_same; auto.
        - lia.
        - apply act_pre_writem. rewrite L0. auto. }
    rewrite addr_writem. rewrite writem_writem_same by (auto; rewrite length_act_f; auto).
    set (ys := act_f c vexp (l_act l) (addr m p) ys0).
    assert (Ey : ys = layer_f (addr m p) f xs).
    { unfold ys, layer_f, ys0. rewrite Hact, Ho. reflexivity. }
    assert (Ly : length ys = n_output l) by (unfold ys; rewrite length_act_f; auto).
    assert (Vy : valid m p (length ys)) by (rewrite Ly; auto).
    rewrite IH with (net := net) (n := n_output l) (xs := ys); auto.
    + f_equal. f_equal. simpl. rewrite <- Ey. unfold writes. simpl. f_equal. f_equal. f_equal.
      apply map_ext. intros. apply addr_writem.
    + apply fwd_pre_writem; auto. inversion Off; subst. rewrite Ly. auto.
    + apply holds_writem_same; auto.
Qed.

Lemma forward_ok : forall ls net a n ps m xs,
  fwd_pre m ls net a n ps -> holds m a xs -> length xs = n ->
  forward c vexp ls (a :: ps) m =
  Ok (tt, writes m (combine ps (acts_f net (map (addr m) ps) xs))).
Proof. intros. rewrite forward_builtin. eapply forward_with_ok; eauto using vmm_builtin. Qed.

(** ** The stack array *)
Lemma nth_error_last A (m : list A) b : nth_error (m ++ [b]) (length m) = Some b.
Proof. rewrite nth_error_app2 by lia. rewrite Nat.sub_diag. reflexivity. Qed.

Lemma set_nth_last A (m : list A) b b' : set_nth (m ++ [b]) (length m) b' = m ++ [b'].
Proof. induction m; simpl; auto. f_equal; auto. Qed.

Lemma writem_last m b o xs :
  writem (m ++ [b]) (mkptr (length m) o) xs =
  m ++ [mkblock (base b) (overwrite (cells b) o (map Some xs))].
Proof. unfold writem. simpl. rewrite nth_error_last. apply set_nth_last. Qed.

Lemma writem_app_l m b p xs : blk p < length m -> writem (m ++ [b]) p xs = writem m p xs ++ [b].
Proof.
  intros H. unfold writem. rewrite nth_error_app1 by auto.
  destruct (nth_error m (blk p)); auto. apply set_nth_app1; auto.
Qed.

Lemma holds_app_l m b p xs : blk p < length m -> holds (m ++ [b]) p xs <-> holds m p xs.
Proof. intros H. unfold holds. rewrite nth_error_app1 by auto. tauto. Qed.
Lemma holds_blk m p xs : holds m p xs -> blk p < length m.
Proof. unfold holds. intros (b & E & _). apply nth_error_Some. congruence. Qed.
Lemma valid_blk m p n : valid m p n -> blk p < length m.
Proof. unfold valid. intros (b & E & _). apply nth_error_Some. congruence. Qed.
Arguments holds_blk {m p xs}.
Arguments valid_blk {m p n}.
Lemma addr_app_l m b p : blk p < length m -> addr (m ++ [b]) p = addr m p.
Proof. intros H. unfold addr. rewrite nth_error_app1 by auto. reflexivity. Qed.
Lemma aligned_to_app_l w m b p : blk p < length m -> aligned_to w (m ++ [b]) p = aligned_to w m p.
Proof. intros H. unfold aligned_to. rewrite addr_app_l; auto. Qed.
Lemma valid_app_l m b p n : blk p < length m -> valid (m ++ [b]) p n <-> valid m p n.
Proof. intros H. unfold valid. rewrite nth_error_app1 by auto. tauto. Qed.
Lemma kal_app_l n m b p : blk p < length m -> kal c n (m ++ [b]) p <-> kal c n m p.
Proof. intros H. unfold kal. rewrite !aligned_to_app_l by auto. tauto. Qed.
Lemma act_pre_app_l g m b p n : blk p < length m -> act_pre c g (m ++ [b]) p n <-> act_pre c g m p n.
Proof. intros H. destruct g; simpl; rewrite ?aligned_to_app_l by auto; tauto. Qed.

Lemma disjoint_blk p n q k : blk p <> blk q -> disjoint p n q k.
Proof. intros H. left. auto. Qed.

(** writes into the last block only *)
Lemma writes_last m : forall l b,
  Forall (fun pv => blk (fst pv) = length m) l ->
  exists b', writes (m ++ [b]) l = m ++ [b'] /\ base b' = base b.
Proof.
  induction l as [|[p v] l IH]; intros b H; simpl.
  - exists b; auto.
  - inversion H; subst. simpl in H2. destruct p as [k o]. simpl in H2. subst k.
    unfold writes. simpl. rewrite writem_last.
    destruct (IH (mkblock (base b) (overwrite (cells b) o (map Some v))) H3) as (b' & E & E2).
    exists b'. split; auto.
Qed.

(** aligned base addresses *)
Lemma fps_align : (align_size c = 4 * Z.of_nat (fps c))%Z.
Proof. unfold align_size, fps. destruct (cfg_isa c); reflexivity. Qed.
Lemma fps_pos : 1 <= fps c.
Proof. unfold fps. destruct (cfg_isa c); lia. Qed.

Definition aligned_base (wb : Z) : Prop := (wb mod align_size c = 0)%Z.

Lemma al_aligned_base wb o : aligned_base wb -> Nat.divide (fps c) o -> al c (wb + 4 * Z.of_nat o) 0 = true.
Proof.
  intros H [k Hk]. unfold al. apply Z.eqb_eq. rewrite Z.add_0_r.
  unfold aligned_base in H. pose proof fps_pos. rewrite fps_align in *.
  apply Z.mod_divide in H; [|lia]. apply Z.mod_divide; [lia|].
  apply Z.divide_add_r; auto. subst o. exists (Z.of_nat k). rewrite Nat2Z.inj_mul. lia.
Qed.

Lemma addr_work m b o : addr (m ++ [b]) (mkptr (length m) o) = (base b + 4 * Z.of_nat o)%Z.
Proof. unfold addr. simpl. rewrite nth_error_last. reflexivity. Qed.

Lemma al_kal m p n : al c (addr m p) 0 = true -> kal c n m p.
Proof.
  unfold al, kal, aligned_to. intros H. apply Z.eqb_eq in H. rewrite Z.add_0_r in H. unfold align_size, has_avx512, has_avx in *.
  split; intros HA _; destruct (cfg_isa c); try discriminate; simpl Z.of_nat; simpl Z.mul; try (rewrite H; reflexivity).
  apply Z.eqb_eq. apply Z.mod_divide in H; [|lia]. apply Z.mod_divide; [lia|].
  eapply Z.divide_trans; [|apply H]. exists 2%Z. reflexivity.
Qed.
Lemma al_aligned8' m p : has_avx c = true -> al c (addr m p) 0 = true -> aligned_to 8 m p = true.
Proof. intros HA H. destruct (al_kal m p 8 H) as [_ K]. apply K; auto. Qed.
Lemma al_act_pre g m p n : al c (addr m p) 0 = true -> act_pre c g m p n.
Proof. intros H. destruct g; simpl; auto. intros. apply al_aligned8'; auto using has_avx2_avx. Qed.

Lemma padding_divide n : Nat.divide (fps c) (size_w_padding c n).
Proof. unfold size_w_padding. exists ((n + fps c - 1) / fps c). reflexivity. Qed.
Lemma padding_ge n : n <= size_w_padding c n.
Proof.
  unfold size_w_padding. pose proof fps_pos.
  pose proof (Nat.div_mod (n + fps c - 1) (fps c) ltac:(lia)).
  pose proof (Nat.mod_upper_bound (n + fps c - 1) (fps c) ltac:(lia)). nia.
Qed.
Lemma padding_le n : size_w_padding c n <= n + fps c.
Proof.
  unfold size_w_padding. pose proof fps_pos.
  pose proof (Nat.div_mod (n + fps c - 1) (fps c) ltac:(lia)). nia.
Qed.

(** offsets of the activation arrays in the work memory *)
Fixpoint work_ptrs (ls : list layer) (p : ptr) : list ptr :=
  match ls with
  | [] => []
  | l :: r => let q := p +! size_w_padding c (n_output l) in q :: work_ptrs r q
  end.

Lemma setup_ok m b : aligned_base (base b) -> forall ls o,
  Nat.divide (fps c) o ->
  setup_activations c ls (mkptr (length m) o) (m ++ [b]) = Ok (work_ptrs ls (mkptr (length m) o), m ++ [b]).
Proof.
  intros HB. induction ls as [|l ls IH]; intros o Ho; simpl; auto.
  assert (Hd : Nat.divide (fps c) (o + size_w_padding c (n_output l))).
  { apply Nat.divide_add_r; auto. apply padding_divide. }
  unfold padd. simpl.
  erewrite bind_ok.
  2:{ unfold is_aligned. rewrite addr_work. pose proof (al_aligned_base _ _ HB Hd) as A. unfold al in A.
      rewrite Z.add_0_r in A. rewrite A. reflexivity. }
  simpl assertM. erewrite bind_ok by reflexivity.
  erewrite bind_ok by (apply IH; auto). reflexivity.
Qed.

Lemma sum_outputs_cons l ls : sum_outputs (l :: ls) = n_output l + sum_outputs ls.
Proof.
  unfold sum_outputs. simpl.
  assert (G : forall ls a b, fold_left (fun s l => s + n_output l) ls (a + b) = a + fold_left (fun s l => s + n_output l) ls b).
  { induction ls0; intros; simpl; auto. rewrite <- Nat.add_assoc. apply IHls0. }
  rewrite <- (Nat.add_0_r (n_output l)) at 1. rewrite G. reflexivity.
Qed.

(** hypotheses on a network stored in memory, n inputs *)
Fixpoint net_holds (m : mem) (n : nat) (ls : list layer) (net : list flayer) : Prop :=
  match ls, net with
  | [], [] => True
  | l :: ls', f :: net' => layer_holds m n l f /\ net_holds m (n_output l) ls' net'
  | _, _ => False
  end.

Lemma layer_holds_app_l m b n l f : layer_holds m n l f -> layer_holds (m ++ [b]) n l f.
Proof.
  intros (A & B & C & D & E & G & H & K).
  pose proof (holds_blk G). pose proof (holds_blk H).
  unfold layer_holds. repeat (split; [auto; fail|]).
  rewrite !holds_app_l, kal_app_l by auto. auto.
Qed.

Definition in_m (m : mem) (l : layer) : Prop := blk (weight l) < length m /\ blk (bias l) < length m.
Lemma net_holds_in_m m : forall ls net n, net_holds m n ls net -> Forall (in_m m) ls.
Proof.
  induction ls; intros [|f net] n H; simpl in *; try tauto; auto.
  destruct H as [(A & B & C & D & E & G & H' & K) H]. constructor; eauto.
  split; eapply holds_blk; eauto.
Qed.
Lemma work_off_params m o n ls : Forall (in_m m) ls -> Forall (off_params (mkptr (length m) o) n) ls.
Proof.
  intros H. eapply Forall_impl; [|apply H]. intros l [A B].
  split; apply disjoint_blk; simpl; lia.
Qed.

(** [fwd_pre] for the layers from some point on, all outputs in work memory *)
Lemma fwd_pre_work m b : aligned_base (base b) -> forall ls net n a o,
  net_holds m n ls net -> Nat.divide (fps c) o ->
  (blk a < length m \/ (blk a = length m /\ off a + n <= o)) ->
  o + sum_outputs ls + fps c * length ls <= length (cells b) ->
  ls <> [] ->
  fwd_pre (m ++ [b]) ls net a n (mkptr (length m) o :: work_ptrs (removelast ls) (mkptr (length m) o)).
Proof.
  intros HB. induction ls as [|l ls IH]; intros net n a o HN Hd Ha Hs Hne; [congruence|].
  destruct net as [|f net]; [simpl in HN; tauto|]. simpl in HN. destruct HN as [HL HN].
  rewrite sum_outputs_cons in Hs. simpl length in Hs.
  assert (AL : al c (addr (m ++ [b]) (mkptr (length m) o)) 0 = true).
  { rewrite addr_work. apply al_aligned_base; auto. }
  assert (HIN : Forall (in_m m) (l :: ls)).
  { apply net_holds_in_m with (net := f :: net) (n := n). simpl. auto. }
  simpl fwd_pre.
  split. { apply layer_holds_app_l; auto. }
  split. { unfold valid. simpl. rewrite nth_error_last. exists b. split; auto. nia. }
  split. { apply al_kal; auto. }
  split. { apply al_act_pre; auto. }
  split. { destruct Ha as [Ha|[Ha Ha2]]. - apply disjoint_blk. simpl. lia. - right. simpl. lia. }
  split. { apply work_off_params; auto. }
  destruct ls as [|l2 ls].
  - simpl. destruct net; auto. 
  - change (removelast (l :: l2 :: ls)) with (l :: removelast (l2 :: ls)).
    simpl work_ptrs. unfold padd at 1 2. simpl blk. simpl off.
    apply IH; auto; try congruence.
    + apply Nat.divide_add_r; auto. apply padding_divide.
    + right. simpl. split; auto. pose proof (padding_ge (n_output l)). lia.
    + pose proof (padding_le (n_output l)). pose proof fps_pos. nia.
Qed.

(** the same with the last output in the caller's array *)
Lemma fwd_pre_out m b po : aligned_base (base b) -> forall ls net n a o,
  net_holds m n ls net -> Nat.divide (fps c) o ->
  (blk a < length m \/ (blk a = length m /\ off a + n <= o)) ->
  o + sum_outputs ls + fps c * length ls <= length (cells b) ->
  ls <> [] ->
  (forall l, nth_error ls (length ls - 1) = Some l ->
     valid m po (n_output l) /\ kal c (n_output l) m po /\ act_pre c (l_act l) m po (n_output l) /\
     off_params po (n_output l) l /\ (length ls = 1 -> disjoint po (n_output l) a n)) ->
  fwd_pre (m ++ [b]) ls net a n
    (tl (firstn (length ls) (a :: mkptr (length m) o :: work_ptrs (firstn (length ls - 2) ls) (mkptr (length m) o)) ++ [po])).
Proof.
  intros HB. induction ls as [|l ls IH]; intros net n a o HN Hd Ha Hs Hne Hlast; [congruence|].
  destruct net as [|f net]; [simpl in HN; tauto|]. simpl in HN. destruct HN as [HL HN].
  rewrite sum_outputs_cons in Hs. simpl length in Hs.
  destruct ls as [|l2 ls].
  - destruct (Hlast l eq_refl) as (V & K & AP & OP & D). pose proof (valid_blk V) as Hb.
    simpl. split. { apply layer_holds_app_l; auto. }
    rewrite valid_app_l, kal_app_l, act_pre_app_l by auto.
    repeat (split; auto).
  - assert (AL : al c (addr (m ++ [b]) (mkptr (length m) o)) 0 = true).
    { rewrite addr_work. apply al_aligned_base; auto. }
    assert (HIN : Forall (in_m m) (l :: l2 :: ls)).
    { apply net_holds_in_m with (net := f :: net) (n := n). simpl. auto. }
    specialize (IH net (n_output l) (mkptr (length m) o) (o + size_w_padding c (n_output l)) HN).
    set (pq := mkptr (length m) o) in *.
    assert (E : tl (firstn (length (l :: l2 :: ls)) (a :: pq :: work_ptrs (firstn (length (l :: l2 :: ls) - 2) (l :: l2 :: ls)) pq) ++ [po])
               = pq :: tl (firstn (length (l2 :: ls)) (pq :: mkptr (length m) (o + size_w_padding c (n_output l))
                          :: work_ptrs (firstn (length (l2 :: ls) - 2) (l2 :: ls)) (mkptr (length m) (o + size_w_padding c (n_output l)))) ++ [po])).
    { simpl length. replace (S (S (length ls)) - 2) with (length ls) by lia.
      simpl. f_equal. destruct ls as [|l3 ls]; [reflexivity|].
      simpl length. replace (S (S (length ls)) - 2) with (length ls) by lia.
      simpl. rewrite ?Nat.sub_0_r. reflexivity. }
    rewrite E. simpl fwd_pre.
    split. { apply layer_holds_app_l; auto. }
    split. { unfold valid. simpl. rewrite nth_error_last. exists b. split; auto. nia. }
    split. { apply al_kal; auto. }
    split. { apply al_act_pre; auto. }
    split. { destruct Ha as [Ha|[Ha Ha2]]. - apply disjoint_blk. simpl. lia. - right. simpl. lia. }
    split. { apply work_off_params; auto. }
    apply IH; try congruence.
    + apply Nat.divide_add_r; auto. apply padding_divide.
    + right. simpl. split; auto. pose proof (padding_ge (n_output l)). lia.
    + pose proof (padding_le (n_output l)). pose proof fps_pos. nia.
    + intros lx Hx. simpl length in Hlast. replace (S (S (length ls)) - 1) with (S (length ls)) in Hlast by lia.
      simpl in Hlast. simpl length in Hx. replace (S (length ls) - 1) with (length ls) in Hx by lia.
      destruct (Hlast lx Hx) as (V & K & AP & OP & D). repeat (split; auto).
      intros _. apply disjoint_blk. simpl. pose proof (valid_blk V). lia.
Qed.

(** the value: alignment only matters for the caller's array *)
Lemma act_f_al g a xs : al c a 0 = true -> act_f c vexp g a xs = act_f c vexp g 0 xs.
Proof.
  intros H. assert (H0 : al c 0 0 = true).
  { unfold al, align_size. destruct (cfg_isa c); reflexivity. }
  destruct g; simpl; auto.
  - unfold relu_f, reg_map. rewrite !pro_f_aligned by auto. reflexivity.
  - assert (E : exps_f c vexp a xs = exps_f c vexp 0 xs).
    { unfold exps_f. rewrite !pro_f_aligned by auto. reflexivity. }
    unfold softmax_f. rewrite E. unfold sum_f. rewrite !pro_f_aligned by auto. reflexivity.
  - unfold sigmoid_f, reg_map. rewrite !pro_f_aligned by auto. reflexivity.
Qed.

(** functional forward pass: hidden arrays are aligned, the last one is at address ao *)
Fixpoint forward_f (net : list flayer) (ao : Z) (xs : list F) : list F :=
  match net with
  | [] => xs
  | [l] => layer_f ao l xs
  | l :: r => forward_f r ao (layer_f 0 l xs)
  end.

Lemma acts_f_last : forall net addrs ao xs,
  length net = S (length addrs) -> Forall (fun a => al c a 0 = true) addrs ->
  exists hs, acts_f net (addrs ++ [ao]) xs = hs ++ [forward_f net ao xs] /\ length hs = length addrs.
Proof.
  induction net as [|l net IH]; intros addrs ao xs HL HA; simpl in HL; [lia|].
  destruct addrs as [|a addrs].
  - simpl in HL. destruct net; [|simpl in HL; lia]. exists []. simpl. auto.
  - inversion HA; subst. simpl in HL.
    destruct (IH addrs ao (layer_f a l xs)) as (hs & E & L); auto; try lia.
    exists (layer_f a l xs :: hs). simpl. rewrite E. split; [|lia].
    destruct net as [|l2 net]; [simpl in HL; lia|].
    assert (EL : layer_f a l xs = layer_f 0 l xs) by (unfold layer_f; apply act_f_al; auto).
    rewrite <- EL. reflexivity.
Qed.

Lemma length_firstn_work : forall k ls p, length (work_ptrs (firstn k ls) p) = Nat.min k (length ls).
Proof.
  induction k; intros [|l ls] p; simpl; auto.
Qed.
Lemma work_ptrs_blk : forall ls p, Forall (fun q => blk q = blk p) (work_ptrs ls p).
Proof.
  induction ls; intros p; simpl; constructor; auto.
  specialize (IHls (p +! size_w_padding c (n_output a))). exact IHls.
Qed.
Lemma work_ptrs_al m b : aligned_base (base b) -> forall ls o, Nat.divide (fps c) o ->
  Forall (fun q => al c (addr (m ++ [b]) q) 0 = true) (work_ptrs ls (mkptr (length m) o)).
Proof.
  intros HB. induction ls; intros o Ho; simpl; constructor.
  - unfold padd. simpl. rewrite addr_work. apply al_aligned_base; auto.
    apply Nat.divide_add_r; auto. apply padding_divide.
  - apply IHls. apply Nat.divide_add_r; auto. apply padding_divide.
Qed.

Lemma combine_app_len A B (l1 l1' : list A) (l2 l2' : list B) :
  length l1 = length l2 -> combine (l1 ++ l1') (l2 ++ l2') = combine l1 l2 ++ combine l1' l2'.
Proof. revert l2. induction l1; intros [|y l2] H; simpl in *; try lia; auto. f_equal. auto. Qed.

Lemma removelast_last A (m : list A) b : removelast (m ++ [b]) = m.
Proof. rewrite removelast_app by congruence. simpl. apply app_nil_r. Qed.

Lemma net_holds_length m : forall ls net n, net_holds m n ls net -> length ls = length net.
Proof. induction ls; intros [|f net] n H; simpl in *; try tauto; auto. destruct H. f_equal. eauto. Qed.

(** last output pointer: condition *)
Definition out_pre (m : mem) (ls : list layer) (a : ptr) (n : nat) (po : ptr) : Prop :=
  forall l, nth_error ls (length ls - 1) = Some l ->
     valid m po (n_output l) /\ kal c (n_output l) m po /\ act_pre c (l_act l) m po (n_output l) /\
     off_params po (n_output l) l /\ (length ls = 1 -> disjoint po (n_output l) a n).

Theorem predict_with_ok VMM wb nn net m pin po xs :
  vmm_spec VMM -> nn_layers nn <> [] -> aligned_base wb ->
  net_holds m (length xs) (nn_layers nn) net ->
  holds m pin xs ->
  out_pre m (nn_layers nn) pin (length xs) po ->
  predict_with c vexp VMM wb nn pin po m = Ok (tt, writem m po (forward_f net (addr m po) xs)).
Proof.
  intros HK Hne HB HN Hin Hout. unfold predict_with.
  set (ls := nn_layers nn) in *.
  destruct (Nat.eqb_spec (length ls) 0) as [E0|E0]. { destruct ls; simpl in E0; congruence. }
  set (N := sum_outputs ls + fps c * length ls).
  set (b := mkblock wb (repeat None N)).
  assert (LB : length (cells b) = N) by (simpl; apply repeat_length).
  erewrite bind_ok by reflexivity. fold b.
  erewrite bind_ok by (apply setup_ok; auto; apply Nat.divide_0_r).
  set (w0 := mkptr (length m) 0).
  pose proof (holds_blk Hin) as Hbi.
  assert (Hlast : exists l, nth_error ls (length ls - 1) = Some l).
  { apply nth_error_ex. lia. }
  destruct Hlast as [l Hl]. destruct (Hout l Hl) as (V & _).
  pose proof (valid_blk V) as Hbo.
  set (ps := tl (firstn (length ls) (pin :: w0 :: work_ptrs (firstn (length ls - 2) ls) w0) ++ [po])).
  assert (EA : firstn (length ls) (pin :: w0 :: work_ptrs (firstn (length ls - 2) ls) w0) ++ [po] = pin :: ps).
  { unfold ps. destruct ls; [simpl in E0; lia|]. reflexivity. }
  rewrite EA.
  assert (HP : fwd_pre (m ++ [b]) ls net pin (length xs) ps).
  { apply (@fwd_pre_out m b po HB ls net (length xs) pin 0); auto.
    - apply Nat.divide_0_r.
    - rewrite LB. unfold N. lia. }
  erewrite bind_ok by (eapply forward_with_ok; eauto; apply holds_app_l; auto).
  (* shape of ps: hidden pointers then po *)
  set (hp := firstn (length ls - 1) (w0 :: work_ptrs (firstn (length ls - 2) ls) w0)).
  assert (EP : ps = hp ++ [po]).
  { unfold ps, hp. destruct ls as [|l1 ls']; [simpl in E0; lia|]. simpl. rewrite ?Nat.sub_0_r. reflexivity. }
  assert (LH : length hp = length ls - 1).
  { unfold hp. rewrite firstn_length. simpl length. rewrite length_firstn_work. lia. }
  rewrite EP, map_app. simpl map. rewrite (addr_app_l m b po) by auto.
  assert (ALH : Forall (fun a => al c a 0 = true) (map (addr (m ++ [b])) hp)).
  { apply Forall_map. unfold hp. apply Forall_forall. intros q Hq.
    assert (Hq' : In q (w0 :: work_ptrs (firstn (length ls - 2) ls) w0)).
    { rewrite <- (firstn_skipn (length ls - 1)). apply in_or_app. auto. }
    simpl in Hq'. destruct Hq' as [<-|Hq'].
    - unfold w0. rewrite addr_work. apply al_aligned_base; auto. apply Nat.divide_0_r.
    - pose proof (@work_ptrs_al m b HB (firstn (length ls - 2) ls) 0 (Nat.divide_0_r _)) as G.
      rewrite Forall_forall in G. apply G; auto. }
  destruct (@acts_f_last net (map (addr (m ++ [b])) hp) (addr m po) xs) as (hs & EH & LHs); auto.
  { rewrite map_length, LH. rewrite <- (net_holds_length _ _ _ _ HN). lia. }
  rewrite EH. rewrite map_length in LHs. rewrite combine_app_len by auto.
  unfold writes. rewrite fold_left_app. simpl.
  destruct (@writes_last m (combine hp hs) b) as (b' & EW & _).
  { apply Forall_forall. intros [q v] Hqv. apply in_combine_l in Hqv. simpl.
    unfold hp in Hqv.
    assert (Hq' : In q (w0 :: work_ptrs (firstn (length ls - 2) ls) w0)).
    { rewrite <- (firstn_skipn (length ls - 1)). apply in_or_app. auto. }
    simpl in Hq'. destruct Hq' as [<-|Hq']; auto.
    pose proof (work_ptrs_blk (firstn (length ls - 2) ls) w0) as G. rewrite Forall_forall in G.
    apply G in Hq'. auto. }
  unfold writes in EW. rewrite EW. rewrite writem_app_l by auto.
  unfold freea. rewrite removelast_last. reflexivity.
Qed.

Theorem predict_ok wb nn net m pin po xs :
  nn_layers nn <> [] -> aligned_base wb ->
  net_holds m (length xs) (nn_layers nn) net ->
  holds m pin xs ->
  out_pre m (nn_layers nn) pin (length xs) po ->
  neuralnet_predict c vexp wb nn pin po m = Ok (tt, writem m po (forward_f net (addr m po) xs)).
Proof. intros. rewrite predict_builtin. apply predict_with_ok; auto using vmm_builtin. Qed.

End ForwardProofs.
