(** CreateProofs.v -- proofs about creating and freeing networks. *)
From Coq Require Import ZArith Bool String Ascii List Lia.
From Verif Require Import Base BaseProofs Logger Npy NpyList SpecNpy NpyProofs SpecList ListProofs Registry SpecRegistry Create SpecCreate SpecLog Prop_Registry.
Import ListNotations.
Local Open Scope nat_scope.

Lemma to_int_ok z : (-2147483648 <= z < 2147483648)%Z -> to_int z = Ok z.
Proof. intros H. unfold to_int. destruct (Z.leb_spec (-2147483648) z); [|lia]. destruct (Z.leb_spec z 2147483647); [|lia]. reflexivity. Qed.
Lemma to_int_over z : (2147483648 <= z)%Z -> to_int z = Fault IntOverflow.
Proof. intros H. unfold to_int. destruct (Z.leb_spec z 2147483647); [lia|]. rewrite andb_false_r. reflexivity. Qed.

(** ** freeing *)
Definition written (l : clayer) : Prop := cl_w l <> FUninit /\ cl_b l <> FUninit.

Lemma free_field_ok h p : p <> FUninit -> (forall x, In x (field_blocks p) -> live h x) ->
  exists h', free_field h p = Ok h' /\ length h' = length h
    /\ (forall x, In x (field_blocks p) -> dead h' x) /\ (forall x, ~ In x (field_blocks p) -> nth_error h' x = nth_error h x).
Proof.
  destruct p as [| |a]; intros W HL; [congruence| |].
  - exists h. split; [reflexivity|]. split; [reflexivity|]. split; [intros x []|reflexivity].
  - cbn [free_field]. pose proof (HL a (or_introl eq_refl)) as LV. rewrite (live_free _ _ LV). eexists. split; [reflexivity|].
    split; [apply length_set_nth|]. split.
    + intros x [<-|[]]. unfold dead. apply set_same. apply live_lt. exact LV.
    + intros x Hx. apply set_other. intros E. apply Hx. left. exact E.
Qed.

Lemma nodup_app {A} (l l' : list A) : NoDup (l ++ l') <-> NoDup l /\ NoDup l' /\ forall x, In x l -> ~ In x l'.
Proof.
  induction l as [|y l IH]; cbn [app].
  - split; [intros H; split; [constructor|]; split; [exact H|intros x []]|intros (_ & H & _); exact H].
  - split.
    + intros H. inversion H as [|? ? N1 N2]; subst. apply IH in N2. destruct N2 as (Q1 & Q2 & Q3). split; [|split; [exact Q2|]].
      * constructor; [intros Q; apply N1; apply in_or_app; left; exact Q|exact Q1].
      * intros x [<-|Hx] Q; [apply N1; apply in_or_app; right; exact Q|exact (Q3 x Hx Q)].
    + intros (Q1 & Q2 & Q3). inversion Q1 as [|? ? N1 N2]; subst. constructor.
      * intros Q. apply in_app_or in Q. destruct Q as [Q|Q]; [exact (N1 Q)|exact (Q3 y (or_introl eq_refl) Q)].
      * apply IH. split; [exact N2|]. split; [exact Q2|]. intros x Hx. apply Q3. right. exact Hx.
Qed.

Lemma live_same h h' x : nth_error h' x = nth_error h x -> live h x -> live h' x.
Proof. intros E (b & H). exists b. unfold holds in *. rewrite E. exact H. Qed.

Lemma weights_free_ok ls : forall h, Forall written ls -> (forall x, In x (flat_map layer_blocks ls) -> live h x) ->
  NoDup (flat_map layer_blocks ls) ->
  exists h', weights_free h ls = Ok h' /\ length h' = length h
    /\ (forall x, In x (flat_map layer_blocks ls) -> dead h' x)
    /\ (forall x, ~ In x (flat_map layer_blocks ls) -> nth_error h' x = nth_error h x).
Proof.
  induction ls as [|l ls IH]; intros h W HL HN.
  - exists h. split; [reflexivity|]. split; [reflexivity|]. split; [intros x []|reflexivity].
  - cbn [flat_map] in *. unfold layer_blocks in HL at 1. unfold layer_blocks in HN at 1. rewrite <- app_assoc in HL, HN.
    pose proof (Forall_inv W) as (W1 & W2). apply Forall_inv_tail in W.
    apply nodup_app in HN. destruct HN as (_ & HN & X1). apply nodup_app in HN. destruct HN as (_ & HN & X2).
    cbn [weights_free].
    destruct (free_field_ok h (cl_w l) W1) as (h1 & E1 & L1 & D1 & S1).
    { intros x Hx. apply HL. apply in_or_app. left. exact Hx. }
    rewrite E1. cbn [rbind].
    assert (K1 : forall x, In x (field_blocks (cl_b l) ++ flat_map layer_blocks ls) -> live h1 x).
    { intros x Hx. apply (live_same h); [apply S1; intros Q; exact (X1 x Q Hx)|]. apply HL. apply in_or_app. right. exact Hx. }
    destruct (free_field_ok h1 (cl_b l) W2) as (h2 & E2 & L2 & D2 & S2).
    { intros x Hx. apply K1. apply in_or_app. left. exact Hx. }
    rewrite E2. cbn [rbind].
    destruct (IH h2 W) as (h3 & E3 & L3 & D3 & S3); [|exact HN|].
    { intros x Hx. apply (live_same h1); [apply S2; intros Q; exact (X2 x Q Hx)|]. apply K1. apply in_or_app. right. exact Hx. }
    exists h3. split; [exact E3|]. split; [lia|]. unfold layer_blocks at 1 3. split.
    + intros x Hx. apply in_app_or in Hx. destruct Hx as [Hx|Hx]; [|apply D3; exact Hx].
      apply in_app_or in Hx. unfold dead in *. destruct Hx as [Hx|Hx].
      * rewrite S3 by (intros Q; apply (X1 x Hx); apply in_or_app; right; exact Q).
        rewrite S2 by (intros Q; apply (X1 x Hx); apply in_or_app; left; exact Q). apply D1. exact Hx.
      * rewrite S3 by (intros Q; exact (X2 x Hx Q)). apply D2. exact Hx.
    + intros x Hx. rewrite S3 by (intros Q; apply Hx; apply in_or_app; right; exact Q).
      rewrite S2 by (intros Q; apply Hx; apply in_or_app; left; apply in_or_app; right; exact Q).
      apply S1. intros Q; apply Hx; apply in_or_app; left; apply in_or_app; left; exact Q.
Qed.

Lemma weights_free_app ls ls' : forall h, weights_free h (ls ++ ls') = rbind (weights_free h ls) (fun h => weights_free h ls').
Proof.
  induction ls as [|l ls IH]; intros h; [reflexivity|]. cbn [app weights_free].
  destruct (free_field h (cl_w l)) as [h1|]; [|reflexivity]. cbn [rbind]. destruct (free_field h1 (cl_b l)) as [h2|]; [|reflexivity]. cbn [rbind].
  apply IH.
Qed.

(** ** allocating *)
Section Alloc.
  Variable mem : nat -> Z -> bool.
  Variable lib_opens : bytes -> bool.
  Variable dlsym : bytes -> bytes -> option (option nat).

  Definition new_mem (size : Z) : option block := Some (BMem (repeat None (Z.to_nat size))).
  Definition w_size (l : clayer) : Z := (cl_in l * cl_out l * 4)%Z.
  Definition b_size (l : clayer) : Z := (cl_out l * 4)%Z.
  Definition good_layer (l : clayer) : Prop := (1 <= cl_in l)%Z /\ (1 <= cl_out l)%Z /\ (cl_in l * cl_out l < 2147483648)%Z.

  Fixpoint placed_w (base : nat) (ls : list clayer) : list clayer :=
    match ls with [] => [] | l :: ls => set_w l (FPtr base) :: placed_w (S base) ls end.
  Fixpoint placed_b (base : nat) (ls : list clayer) : list clayer :=
    match ls with [] => [] | l :: ls => set_b l (FPtr base) :: placed_b (S base) ls end.
  Definition mems_w (ls : list clayer) : heap := map (fun l => new_mem (w_size l)) ls.
  Definition mems_b (ls : list clayer) : heap := map (fun l => new_mem (b_size l)) ls.

  Lemma malloc_ok h size : mem (length h) size = true -> malloc mem h size = (h ++ [new_mem size], Some (length h)).
  Proof. intros E. unfold malloc. rewrite E. reflexivity. Qed.
  Lemma malloc_fail h size : mem (length h) size = false -> malloc mem h size = (h, None).
  Proof. intros E. unfold malloc. rewrite E. reflexivity. Qed.
  Lemma app_len1 {A} (h : list A) x : length (h ++ [x]) = S (length h).
  Proof. rewrite app_length. cbn. lia. Qed.

  Lemma alloc_weights_app ls : forall h rest, Forall good_layer ls ->
    (forall k s, length h <= k < length h + length ls -> mem k s = true) ->
    alloc_weights mem h (ls ++ rest) =
      rbind (alloc_weights mem (h ++ mems_w ls) rest) (fun r => match r with (h', ls', ok) => Ok (h', placed_w (length h) ls ++ ls', ok) end).
  Proof.
    induction ls as [|l ls IH]; intros h rest G HM.
    - cbn [app mems_w map placed_w length] in *. rewrite app_nil_r. destruct (alloc_weights mem h rest) as [[[h' ls'] ok]|]; reflexivity.
    - pose proof (Forall_inv G) as (G1 & G2 & G3). apply Forall_inv_tail in G. cbn [app alloc_weights]. unfold mul_int.
      rewrite to_int_ok by nia. cbn [rbind]. rewrite to_size_small by (unfold size_max1; nia).
      cbn [length] in HM. rewrite malloc_ok by (apply HM; lia). rewrite IH; [|exact G|].
      2:{ intros k s Hk. apply HM. rewrite app_len1 in Hk. lia. }
      rewrite app_len1. replace ((h ++ [new_mem (cl_in l * cl_out l * 4)]) ++ mems_w ls) with (h ++ mems_w (l :: ls))
        by (rewrite <- app_assoc; reflexivity).
      destruct (alloc_weights mem (h ++ mems_w (l :: ls)) rest) as [[[h' ls'] ok]|]; reflexivity.
  Qed.
  Lemma alloc_biases_app ls : forall h rest, Forall good_layer ls ->
    (forall k s, length h <= k < length h + length ls -> mem k s = true) ->
    alloc_biases mem h (ls ++ rest) =
      rbind (alloc_biases mem (h ++ mems_b ls) rest) (fun r => match r with (h', ls', ok) => Ok (h', placed_b (length h) ls ++ ls', ok) end).
  Proof.
    induction ls as [|l ls IH]; intros h rest G HM.
    - cbn [app mems_b map placed_b length] in *. rewrite app_nil_r. destruct (alloc_biases mem h rest) as [[[h' ls'] ok]|]; reflexivity.
    - pose proof (Forall_inv G) as (G1 & G2 & G3). apply Forall_inv_tail in G. cbn [app alloc_biases].
      rewrite to_size_small by (unfold size_max1; nia).
      cbn [length] in HM. rewrite malloc_ok by (apply HM; lia). rewrite IH; [|exact G|].
      2:{ intros k s Hk. apply HM. rewrite app_len1 in Hk. lia. }
      rewrite app_len1. replace ((h ++ [new_mem (cl_out l * 4)]) ++ mems_b ls) with (h ++ mems_b (l :: ls))
        by (rewrite <- app_assoc; reflexivity).
      destruct (alloc_biases mem (h ++ mems_b (l :: ls)) rest) as [[[h' ls'] ok]|]; reflexivity.
  Qed.

  Lemma good_exists ls : Forall good_layer ls -> existsb (fun l => (cl_in l <? 1) || (cl_out l <? 1))%Z ls = false.
  Proof.
    induction 1 as [|l ls (G1 & G2 & _) G IH]; [reflexivity|]. cbn [existsb]. rewrite IH.
    destruct (Z.ltb_spec (cl_in l) 1); [lia|]. destruct (Z.ltb_spec (cl_out l) 1); [lia|]. reflexivity.
  Qed.
  Lemma placed_good ls : forall b, Forall good_layer ls -> Forall good_layer (placed_w b ls).
  Proof. induction ls as [|l ls IH]; intros b H; [constructor|]. inversion H; subst. constructor; [assumption|apply IH; assumption]. Qed.
  Lemma placed_w_len ls : forall b, length (placed_w b ls) = length ls.
  Proof. induction ls as [|l ls IH]; intros b; [reflexivity|]. cbn [placed_w length]. rewrite IH. reflexivity. Qed.
  Lemma placed_b_len ls : forall b, length (placed_b b ls) = length ls.
  Proof. induction ls as [|l ls IH]; intros b; [reflexivity|]. cbn [placed_b length]. rewrite IH. reflexivity. Qed.
  Lemma mems_b_placed ls : forall b, mems_b (placed_w b ls) = mems_b ls.
  Proof. induction ls as [|l ls IH]; intros b; [reflexivity|]. cbn [placed_w mems_b map]. unfold mems_b in IH. rewrite IH. reflexivity. Qed.
  Lemma mems_w_len ls : length (mems_w ls) = length ls. Proof. apply map_length. Qed.
  Lemma mems_b_len ls : length (mems_b ls) = length ls. Proof. apply map_length. Qed.

  Lemma placed_w_nth ls : forall b i l, nth_error ls i = Some l -> nth_error (placed_w b ls) i = Some (set_w l (FPtr (b + i))).
  Proof.
    induction ls as [|x ls IH]; intros b [|i] l H; cbn in H; try discriminate.
    - inversion H; subst. cbn. rewrite Nat.add_0_r. reflexivity.
    - cbn [placed_w nth_error]. rewrite (IH (S b) i l H). do 3 f_equal. lia.
  Qed.
  Lemma placed_b_nth ls : forall b i l, nth_error ls i = Some l -> nth_error (placed_b b ls) i = Some (set_b l (FPtr (b + i))).
  Proof.
    induction ls as [|x ls IH]; intros b [|i] l H; cbn in H; try discriminate.
    - inversion H; subst. cbn. rewrite Nat.add_0_r. reflexivity.
    - cbn [placed_b nth_error]. rewrite (IH (S b) i l H). do 3 f_equal. lia.
  Qed.

  Lemma alloc_weights_all h ls : Forall good_layer ls -> (forall k s, length h <= k < length h + length ls -> mem k s = true) ->
    alloc_weights mem h ls = Ok (h ++ mems_w ls, placed_w (length h) ls, true).
  Proof.
    intros G HM. pose proof (alloc_weights_app ls h [] G HM) as E. rewrite app_nil_r in E. rewrite E. cbn [alloc_weights rbind].
    rewrite app_nil_r. reflexivity.
  Qed.

  (** all fields allocated *)
  Lemma weights_allocate_ok h ls : Forall good_layer ls ->
    (forall k s, length h <= k < length h + 2 * length ls -> mem k s = true) ->
    weights_allocate mem h ls = Ok (h ++ mems_w ls ++ mems_b ls, placed_b (length h + length ls) (placed_w (length h) ls), true).
  Proof.
    intros G HM. unfold weights_allocate. rewrite good_exists by exact G.
    rewrite alloc_weights_all; [|exact G|intros; apply HM; lia]. cbn [rbind].
    rewrite <- (app_nil_r (placed_w (length h) ls)) at 1. rewrite alloc_biases_app; [|apply placed_good; exact G|].
    - cbn [alloc_biases rbind]. rewrite app_nil_r, mems_b_placed. rewrite app_length, mems_w_len, <- app_assoc. reflexivity.
    - intros k s. rewrite app_length, mems_w_len, placed_w_len. intros; apply HM; lia.
  Qed.

  Definition fresh (l : clayer) : Prop := cl_w l = FUninit /\ cl_b l = FUninit.

  (** the weights of layer k cannot be allocated *)
  Lemma weights_allocate_fail_w h ls k : Forall good_layer ls -> Forall fresh ls -> k < length ls ->
    (forall i s, length h <= i < length h + k -> mem i s = true) -> (forall s, mem (length h + k) s = false) ->
    weights_allocate mem h ls = Fault Uninit.
  Proof.
    intros G FR K HM HF. unfold weights_allocate. rewrite good_exists by exact G.
    rewrite <- (firstn_skipn k ls). rewrite alloc_weights_app.
    2:{ rewrite <- (firstn_skipn k ls) in G. apply Forall_app in G. apply G. }
    2:{ intros i s. rewrite firstn_length_le by lia. apply HM. }
    destruct (skipn k ls) as [|l rest] eqn:ES.
    { exfalso. pose proof (skipn_length k ls) as Q. rewrite ES in Q. cbn in Q. lia. }
    assert (IL : In l ls) by (rewrite <- (firstn_skipn k ls), ES; apply in_or_app; right; left; reflexivity).
    rewrite Forall_forall in G, FR. destruct (G l IL) as (G1 & G2 & G3).
    cbn [alloc_weights]. unfold mul_int. rewrite to_int_ok by nia. cbn [rbind].
    rewrite malloc_fail.
    2:{ rewrite app_length, mems_w_len, firstn_length_le by lia. apply HF. }
    cbn [rbind]. destruct ls as [|l0 ls']; [cbn in K; lia|]. destruct k as [|k].
    - cbn in ES. inversion ES; subst. cbn [firstn placed_w app weights_free set_w cl_w cl_b free_field rbind]. rewrite (proj2 (FR l IL)). reflexivity.
    - cbn [firstn placed_w app weights_free set_w cl_w cl_b free_field rbind mems_w map].
      assert (LV : live (h ++ new_mem (w_size l0) :: map (fun l : clayer => new_mem (w_size l)) (firstn k ls')) (length h)).
      { eexists. unfold holds. rewrite nth_error_app2 by lia. rewrite Nat.sub_diag. reflexivity. }
      rewrite (live_free _ _ LV). cbn [rbind]. rewrite (proj2 (FR l0 (or_introl eq_refl))). reflexivity.
  Qed.

  (** the blocks of layers that are placed *)
  Lemma placed_blocks ls : forall a b x, In x (flat_map layer_blocks (placed_b b (placed_w a ls))) <->
    (a <= x < a + length ls \/ b <= x < b + length ls).
  Proof.
    induction ls as [|l ls IH]; intros a b x; cbn [placed_w placed_b flat_map length]; [cbn; lia|].
    rewrite in_app_iff, IH. cbn. lia.
  Qed.
  Lemma placed_nodup ls : forall a b, a + length ls <= b -> NoDup (flat_map layer_blocks (placed_b b (placed_w a ls))).
  Proof.
    induction ls as [|l ls IH]; intros a b H; cbn [placed_w placed_b flat_map length] in *; [constructor|].
    apply nodup_app. split; [|split; [apply IH; lia|]].
    - cbn. repeat constructor; cbn; lia.
    - intros x Hx Q. apply placed_blocks in Q. cbn in Hx. lia.
  Qed.
  Lemma placed_written ls : forall a b, Forall written (placed_b b (placed_w a ls)).
  Proof. induction ls as [|l ls IH]; intros a b; cbn [placed_w placed_b]; constructor; [split; discriminate|apply IH]. Qed.
  Lemma new_live h ms x : Forall (fun o => o <> None) ms -> length h <= x < length (h ++ ms) -> live (h ++ ms) x.
  Proof.
    intros F H. rewrite app_length in H. unfold live, holds. rewrite nth_error_app2 by lia.
    destruct (nth_error ms (x - length h)) as [o|] eqn:E; [|apply nth_error_None in E; lia].
    rewrite Forall_forall in F. pose proof (F o (nth_error_In _ _ E)). destruct o as [b|]; [exists b; reflexivity|congruence].
  Qed.
  Lemma mems_some ls ls' : Forall (fun o : option block => o <> None) (mems_w ls ++ mems_b ls').
  Proof.
    apply Forall_app. split; apply Forall_forall; intros o Ho; apply in_map_iff in Ho; destruct Ho as (l & <- & _); discriminate.
  Qed.
  Lemma placed_w_firstn k ls : forall a, firstn k (placed_w a ls) = placed_w a (firstn k ls).
  Proof. revert ls. induction k as [|k IH]; intros [|l ls] a; cbn [firstn placed_w]; [reflexivity..|]. rewrite IH. reflexivity. Qed.
  Lemma placed_w_skipn k ls : forall a, skipn k (placed_w a ls) = placed_w (a + k) (skipn k ls).
  Proof.
    revert ls. induction k as [|k IH]; intros ls a; [rewrite Nat.add_0_r; reflexivity|]. destruct ls as [|l ls]; [reflexivity|].
    cbn [skipn placed_w]. rewrite IH. f_equal. lia.
  Qed.

  (** the bias of layer k cannot be allocated: the layers before and the one after *)
  Lemma alloc_biases_fail h ls k l rest : Forall good_layer ls -> skipn k ls = l :: rest -> k < length ls ->
    (forall i s, length h + length ls <= i < length h + length ls + k -> mem i s = true) -> (forall s, mem (length h + length ls + k) s = false) ->
    alloc_biases mem (h ++ mems_w ls) (placed_w (length h) ls) =
      Ok (h ++ mems_w ls ++ mems_b (firstn k ls),
          (placed_b (length h + length ls) (placed_w (length h) (firstn k ls)) ++ [set_b (set_w l (FPtr (length h + k))) FNull])
            ++ placed_w (S (length h + k)) rest, false).
  Proof.
    intros G ES K HM HF. rewrite <- (firstn_skipn k (placed_w (length h) ls)), placed_w_firstn, placed_w_skipn, ES.
    rewrite alloc_biases_app.
    2:{ apply placed_good. rewrite <- (firstn_skipn k ls) in G. apply Forall_app in G. apply G. }
    2:{ intros i s. rewrite app_length, mems_w_len, placed_w_len, firstn_length_le by lia. apply HM. }
    rewrite mems_b_placed. cbn [placed_w alloc_biases]. rewrite malloc_fail.
    2:{ rewrite !app_length, mems_w_len, mems_b_len, firstn_length_le by lia. apply HF. }
    cbn [rbind]. rewrite app_length, mems_w_len, <- !app_assoc. reflexivity.
  Qed.

  Lemma fail_prefix h ls k l rest : skipn k ls = l :: rest -> k < length ls ->
    let H := h ++ mems_w ls ++ mems_b (firstn k ls) in
    exists h', weights_free H (placed_b (length h + length ls) (placed_w (length h) (firstn k ls)) ++ [set_b (set_w l (FPtr (length h + k))) FNull]) = Ok h'
      /\ length h' = length H
      /\ (forall x, length h <= x <= length h + k \/ length h + length ls <= x < length h + length ls + k -> dead h' x)
      /\ (forall x, x < length h \/ length h + k < x < length h + length ls -> nth_error h' x = nth_error H x).
  Proof.
    intros ES K H. set (P := placed_b _ _).
    assert (BL : forall x, In x (flat_map layer_blocks (P ++ [set_b (set_w l (FPtr (length h + k))) FNull])) <->
       (length h <= x <= length h + k \/ length h + length ls <= x < length h + length ls + k)).
    { intros x. rewrite flat_map_app, in_app_iff. unfold P. rewrite placed_blocks, firstn_length_le by lia. cbn. lia. }
    destruct (weights_free_ok (P ++ [set_b (set_w l (FPtr (length h + k))) FNull]) H) as (h' & E & L & D & SA).
    - apply Forall_app. split; [apply placed_written|]. constructor; [split; discriminate|constructor].
    - intros x Hx. apply BL in Hx. apply new_live; [apply mems_some|]. rewrite !app_length, mems_w_len, mems_b_len, firstn_length_le by lia. lia.
    - rewrite flat_map_app. apply nodup_app. split; [apply placed_nodup; rewrite firstn_length_le by lia; lia|]. split.
      + cbn. repeat constructor. intros [].
      + intros x Hx Q. unfold P in Hx. apply placed_blocks in Hx. rewrite firstn_length_le in Hx by lia. cbn in Q. lia.
    - exists h'. split; [exact E|]. split; [exact L|]. split; [intros x Hx; apply D; apply BL; exact Hx|].
      intros x Hx. apply SA. rewrite BL. lia.
  Qed.

  Lemma skipn_cons {A} k (ls : list A) : k < length ls -> exists l, skipn k ls = l :: skipn (S k) ls /\ nth_error ls k = Some l.
  Proof.
    revert k. induction ls as [|x ls IH]; intros [|k] K; cbn in K; try lia.
    - exists x. split; reflexivity.
    - destruct (IH k) as (l & E & N); [lia|]. exists l. split; [exact E|exact N].
  Qed.

  Lemma weights_allocate_fail_b h ls k : Forall good_layer ls -> Forall fresh ls -> S k < length ls ->
    (forall i s, length h <= i < length h + length ls + k -> mem i s = true) -> (forall s, mem (length h + length ls + k) s = false) ->
    weights_allocate mem h ls = Fault Uninit.
  Proof.
    intros G FR K HM HF. unfold weights_allocate. rewrite good_exists by exact G.
    rewrite alloc_weights_all; [|exact G|intros; apply HM; lia]. cbn [rbind].
    destruct (skipn_cons k ls) as (l & ES & _); [lia|]. destruct (skipn_cons (S k) ls) as (l' & ES' & N'); [lia|].
    rewrite (alloc_biases_fail h ls k l (skipn (S k) ls)); [|assumption..|lia|intros; apply HM; lia|exact HF]. cbn [rbind].
    rewrite weights_free_app. destruct (fail_prefix h ls k l (skipn (S k) ls) ES) as (h' & E & L & D & SA); [lia|].
    rewrite E. cbn [rbind]. rewrite ES'. cbn [placed_w weights_free set_w cl_w free_field].
    assert (LV : live h' (S (length h + k))).
    { eapply live_same; [apply SA; lia|]. apply new_live; [apply mems_some|]. rewrite !app_length, mems_w_len, mems_b_len. lia. }
    rewrite (live_free _ _ LV). unfold set_w; cbn [rbind cl_b cl_w].
    rewrite Forall_forall in FR. destruct (FR l' (nth_error_In _ _ N')) as (_ & ->). reflexivity.
  Qed.

  Lemma weights_allocate_fail_last h ls : Forall good_layer ls -> 0 < length ls ->
    (forall i s, length h <= i < length h + 2 * length ls - 1 -> mem i s = true) -> (forall s, mem (length h + 2 * length ls - 1) s = false) ->
    exists h' ls', weights_allocate mem h ls = Ok (h', ls', false) /\ length h' = length h + 2 * length ls - 1
      /\ (forall x, length h <= x < length h' -> dead h' x) /\ (forall x, x < length h -> nth_error h' x = nth_error h x).
  Proof.
    intros G K HM HF. unfold weights_allocate. rewrite good_exists by exact G.
    rewrite alloc_weights_all; [|exact G|intros; apply HM; lia]. cbn [rbind].
    set (k := length ls - 1). destruct (skipn_cons k ls) as (l & ES & _); [lia|].
    assert (EN : skipn (S k) ls = []) by (apply skipn_all2; lia).
    rewrite (alloc_biases_fail h ls k l (skipn (S k) ls)); [|assumption|exact ES|lia|intros; apply HM; lia|].
    2:{ intros s. replace (length h + length ls + k) with (length h + 2 * length ls - 1) by lia. apply HF. }
    cbn [rbind]. rewrite weights_free_app. destruct (fail_prefix h ls k l (skipn (S k) ls) ES) as (h' & E & L & D & SA); [lia|].
    rewrite E. cbn [rbind]. rewrite EN. cbn [placed_w weights_free rbind].
    eexists. eexists. split; [reflexivity|].
    assert (L' : length h' = length h + 2 * length ls - 1).
    { rewrite L, !app_length, mems_w_len, mems_b_len, firstn_length_le by lia. lia. }
    split; [exact L'|]. split.
    - intros x Hx. apply D. lia.
    - intros x Hx. rewrite SA by (left; exact Hx). apply nth_error_app1. exact Hx.
  Qed.
End Alloc.
