(** LoadProofs.v -- proofs about loading networks. *)
From Coq Require Import ZArith Bool String Ascii List Lia.
From Verif Require Import Base BaseProofs Activation Logger Npy NpyList SpecNpy NpyProofs SpecList ListProofs Registry SpecRegistry
  Create SpecCreate SpecLog Prop_Registry CreateProofs Prop_Create NetFile SpecNetFile.
Import ListNotations.
Local Open Scope nat_scope.

Lemma function_for_fun lib_opens dlsym o f g : function_for lib_opens dlsym o f -> function_for lib_opens dlsym o g -> f = g.
Proof.
  destruct o as [s|]; cbn; [|congruence]. intros [H1|(H1 & ->)] [H2|(H2 & ->)].
  - eapply named_fun; eassumption.
  - destruct (H2 _ H1).
  - destruct (H1 _ H2).
  - reflexivity.
Qed.

Lemma int_of_size_small z : (0 <= z < 2147483648)%Z -> int_of_size z = z.
Proof. intros H. unfold int_of_size. rewrite Z.mod_small by lia. lia. Qed.

(** ** names *)
Lemma upto_nul_pad s n : ~ In nul s -> upto_nul (s ++ repeat nul n) = s.
Proof.
  intros H. induction s as [|c s IH]; [destruct n; reflexivity|]. cbn [app upto_nul].
  destruct (Ascii.eqb_spec c nul) as [-> |NE]; [exfalso; apply H; left; reflexivity|]. rewrite IH; [reflexivity|]. intros Q. apply H. right. exact Q.
Qed.

Lemma rows_of_names e : forall (names : list bytes) rest, Forall (fun s => length s <= e) names ->
  rows_of (length names) e (flat_map (fun s => s ++ repeat nul (e - length s)) names ++ rest)
  = Ok (map (fun s => s ++ repeat nul (e - length s)) names).
Proof.
  induction names as [|s names IH]; intros rest F; [reflexivity|]. inversion F as [|? ? F1 F2]; subst. cbn [length flat_map map rows_of].
  set (row := s ++ repeat nul (e - length s)).
  assert (LR : length row = e) by (unfold row; rewrite app_length, repeat_length; lia).
  rewrite <- app_assoc. destruct (Nat.ltb_spec (length (row ++ flat_map (fun s => s ++ repeat nul (e - length s)) names ++ rest)) e) as [Q|_].
  { rewrite app_length in Q. lia. }
  rewrite skipn_app, skipn_all2 by lia. rewrite LR, Nat.sub_diag. cbn [app skipn]. rewrite IH by exact F2. cbn [rbind].
  rewrite firstn_app, firstn_all2 by lia. rewrite LR, Nat.sub_diag. cbn [firstn]. rewrite app_nil_r. reflexivity.
Qed.

Section Load.
  Variable alloc : Z -> bool.
  Variable mem : nat -> Z -> bool.
  Variable lib_opens : bytes -> bool.
  Variable dlsym : bytes -> bytes -> option (option nat).
  Hypothesis HM : forall k s, mem k s = true.

  Definition names_blocks (n : Z) (e : Z) : heap := [new_mem (n * 8); new_mem (n * (e + 1))].

  Lemma names_from_npy_ok h m names : names_array names m -> names <> [] -> (Z.of_nat (length (np_data m)) < 4611686018427387904)%Z ->
    (Z.of_nat (length names) < 1152921504606846976)%Z ->
    exists e, names_from_npy mem h m = Ok (h ++ [new_mem (Z.of_nat (length names) * 8); new_mem e], (length h, S (length h), names)).
  Proof.
    intros (e & T & E & SH & ND & FO & DA & FN) NE LD LN. unfold names_from_npy, shape_at. rewrite SH. cbn [nth_error rbind].
    assert (L1 : length names <> 0) by (destruct names; [congruence|cbn; lia]).
    destruct (Z.leb_spec size_max1 (Z.of_nat (length names) * 8)) as [Q|_]; [unfold size_max1 in Q; lia|].
    rewrite malloc_ok by apply HM. destruct (Z.ltb_spec (Z.of_nat (length names)) 1); [lia|].
    rewrite malloc_ok by apply HM. rewrite E.
    assert (LDD : length (np_data m) = length names * e).
    { rewrite DA. clear -FN. induction FN as [|s names (F1 & _) F2 IH]; [reflexivity|]. cbn [flat_map]. rewrite !app_length, repeat_length, IH. cbn [length]. lia. }
    rewrite to_size_small by (unfold size_max1; nia). rewrite Z.eqb_refl. cbn [negb].
    rewrite !Nat2Z.id, DA. rewrite <- (app_nil_r (flat_map _ names)).
    rewrite rows_of_names by (eapply Forall_impl; [|exact FN]; cbn; tauto). cbn [rbind]. eexists.
    rewrite <- app_assoc. cbn [app]. rewrite app_len1. f_equal. f_equal. f_equal. rewrite map_map.
    clear -FN. induction FN as [|s names (F1 & F0) F2 IH]; [reflexivity|]. cbn [map]. rewrite upto_nul_pad by exact F0. f_equal. exact IH.
  Qed.

  (** ** the loop over the list *)
  Lemma scan_floats h p cs : chain h p cs -> Forall (fun c => np_type (c_m c) = "f"%char) cs -> forall fuel wb names, length cs < fuel ->
    scan mem fuel h p wb names = Ok (h, wb ++ arrays_of cs, names, true).
  Proof.
    induction 1 as [|c next cs H1 H2 H3 H4 HC IH]; intros F fuel wb names HF; (destruct fuel as [|f]; [lia|]); cbn [scan].
    - rewrite app_nil_r. reflexivity.
    - rewrite (get_node_holds _ _ _ _ _ H1). cbn [rbind]. rewrite (get_arr_holds _ _ _ _ H2). cbn [rbind fst].
      rewrite (Forall_inv F). cbn [Ascii.eqb]. rewrite IH; [|exact (Forall_inv_tail F)|cbn in HF; lia]. rewrite <- app_assoc. reflexivity.
  Qed.
  Lemma scan_names h pre : forall p c post fuel wb names, chain h p (pre ++ c :: post) ->
    Forall (fun c => np_type (c_m c) = "f"%char) (pre ++ post) -> names_array names (c_m c) -> names <> [] ->
    (Z.of_nat (length (np_data (c_m c))) < 4611686018427387904)%Z -> (Z.of_nat (length names) < 1152921504606846976)%Z ->
    length (pre ++ c :: post) < fuel ->
    exists e, scan mem fuel h p wb None = Ok (h ++ [new_mem (Z.of_nat (length names) * 8); new_mem e], wb ++ arrays_of (pre ++ post), Some (length h, S (length h), names), true).
  Proof.
    induction pre as [|c0 pre IH]; intros p c post fuel wb names HC F NA NE LD LN HF; (destruct fuel as [|f]; [lia|]);
      inversion HC as [|? next ? H1 H2 H3 H4 HC' E1 E2]; subst; cbn [scan app];
      rewrite (get_node_holds _ _ _ _ _ H1); cbn [rbind]; rewrite (get_arr_holds _ _ _ _ H2); cbn [rbind fst].
    - destruct NA as (e0 & NT & NA). rewrite NT. cbn [Ascii.eqb Bool.eqb].
      destruct (names_from_npy_ok h (c_m c) names) as (e & EN); try assumption.
      { exists e0. split; assumption. }
      exists e. rewrite EN. cbn [rbind fst snd].
      apply scan_floats; [|exact F|cbn in HF; lia]. eapply chain_frame; [exact HC'|]. intros x Hx. apply nth_error_app1. eapply chain_lt; eassumption.
    - cbn [app] in F. rewrite (Forall_inv F). cbn [Ascii.eqb Bool.eqb].
      destruct (IH next c post f (wb ++ [c_m c0]) names HC' (Forall_inv_tail F) NA NE LD LN) as (e & EN); [cbn in HF; lia|].
      exists e. rewrite EN. rewrite <- app_assoc. reflexivity.
  Qed.

  (** ** sizes *)
  Definition sizes_of (ds : list ndesc) : list Z := match ds with d :: _ => d_in d :: map d_out ds | [] => [] end.
  Lemma steps_sizes ds : chained ds -> steps (sizes_of ds) = map (fun d => (d_in d, d_out d)) ds.
  Proof.
    induction ds as [|d [|e r] IH]; intros C; [reflexivity..|]. destruct C as (C1 & C2).
    change (sizes_of (d :: e :: r)) with (d_in d :: d_out d :: map d_out (e :: r)).
    change (steps (d_in d :: d_out d :: map d_out (e :: r))) with ((d_in d, d_out d) :: steps (d_out d :: map d_out (e :: r))).
    rewrite C1 at 2. change (d_in e :: map d_out (e :: r)) with (sizes_of (e :: r)). rewrite (IH C2). reflexivity.
  Qed.
  Lemma desc_fit ds : Forall desc_ok ds -> chained ds -> sizes_fit (sizes_of ds).
  Proof.
    intros F C. split; [|rewrite (steps_sizes ds C); clear C; induction F as [|d ds (D1 & D2 & D3 & _) F IH]; cbn; constructor; assumption].
    destruct ds as [|d ds]; [constructor|]. cbn [sizes_of]. constructor; [apply (Forall_inv F)|].
    clear C. induction F as [|e es (D1 & D2 & D3 & _) F IH]; cbn [map]; constructor; assumption.
  Qed.

  Lemma params_cons d ds ms : parameter_arrays (d :: ds) ms ->
    exists w b r, ms = w :: b :: r /\ float_array [d_in d; d_out d] (d_w d) w /\ float_array [d_out d] (d_b d) b /\ parameter_arrays ds r.
  Proof.
    intros H. unfold parameter_arrays in H. cbn [flat_map app] in H. inversion H as [|? w ? ms' H1 H2 E1 E2]; subst.
    inversion H2 as [|? b ? r H3 H4 E3 E4]; subst. exists w, b, r. repeat split; assumption || apply H1 || apply H3 || idtac.
  Qed.
  Lemma params_len ds : forall ms, parameter_arrays ds ms -> length ms = 2 * length ds.
  Proof.
    induction ds as [|d ds IH]; intros ms H; [inversion H; reflexivity|].
    destruct (params_cons _ _ _ H) as (w & b & r & -> & _ & _ & H'). cbn [length]. rewrite (IH r H'). lia.
  Qed.
  Lemma params_types ds ms : parameter_arrays ds ms -> Forall (fun m => np_type m = "f"%char) ms.
  Proof.
    unfold parameter_arrays. generalize (flat_map (fun d => [([d_in d; d_out d], d_w d); ([d_out d], d_b d)]) ds) as l.
    intros l H. induction H as [|x m l ms H F IH]; constructor; [apply H|exact IH].
  Qed.
  Lemma out_sizes_ok ds : forall ms, Forall desc_ok ds -> parameter_arrays ds ms -> out_sizes (length ds) ms = Ok (map d_out ds).
  Proof.
    induction ds as [|d ds IH]; intros ms D H; [reflexivity|]. destruct (params_cons _ _ _ H) as (w & b & r & -> & HW & HB & H').
    cbn [length out_sizes wb_at nth_error rbind]. unfold shape_at. destruct HW as (_ & _ & -> & _). cbn [app nth_error rbind].
    cbn [skipn]. rewrite (IH r (Forall_inv_tail D) H'). cbn [rbind map]. destruct (Forall_inv D) as (_ & D2 & _).
    rewrite int_of_size_small by lia. reflexivity.
  Qed.

  (** ** copying *)
  Lemma mem_write_full h a l (src : bytes) n : holds h a (BMem l) -> Z.of_nat (length src) = n -> Z.of_nat (length l) = n ->
    mem_write h a src n = Ok (set_nth h a (Some (BMem (map Some src)))).
  Proof.
    intros H E1 E2. unfold mem_write, get_mem. rewrite (h_get_holds _ _ _ H). cbn [rbind].
    rewrite E1, E2. destruct (Z.leb_spec n n); [|lia]. cbn [andb].
    rewrite firstn_all2 by lia. rewrite skipn_all2 by lia. rewrite app_nil_r. reflexivity.
  Qed.

  Lemma copy_ok ds : forall h ls ms,
    Forall desc_ok ds -> parameter_arrays ds ms ->
    Forall2 (fun d l => is_layer h (d_in d) (d_out d) l) ds ls -> NoDup (flat_map layer_blocks ls) ->
    exists h', copy_layers h ls ms = Ok h' /\ length h' = length h
      /\ Forall2 (fun d l => field_is h' (cl_w l) (d_w d) /\ field_is h' (cl_b l) (d_b d)) ds ls
      /\ (forall x, ~ In x (flat_map layer_blocks ls) -> nth_error h' x = nth_error h x).
  Proof.
    induction ds as [|d ds IH]; intros h ls ms D P F N; inversion F as [|? l ? ls' FL F' E1 E2]; subst.
    - exists h. split; [reflexivity|]. split; [reflexivity|]. split; [constructor|reflexivity].
    - destruct (params_cons _ _ _ P) as (w & b & r & -> & HW & HB & P'). cbn [copy_layers wb_at nth_error rbind skipn].
      destruct HW as (_ & _ & SW & _ & FW & DW). destruct HB as (_ & _ & SB & _ & FB & DB).
      destruct (Forall_inv D) as (D1 & D2 & D3 & D4 & D5). destruct FL as (C1 & C2 & (a & la & Ea & Ha & La) & (b' & lb & Eb & Hb & Lb)).
      unfold shape_at. rewrite SW, SB. cbn [app nth_error rbind]. rewrite Ea, Eb. cbn [field_addr rbind].
      cbn [flat_map] in N. unfold layer_blocks in N at 1. rewrite Ea, Eb in N. cbn [field_blocks app] in N.
      inversion N as [|? ? N1 N']; subst. inversion N' as [|? ? N2 N'']; subst. cbn [In] in N1.
      assert (AB : a <> b') by (intros E; apply N1; left; congruence).
      pose proof (holds_lt _ _ _ Ha) as LTa. pose proof (holds_lt _ _ _ Hb) as LTb.
      rewrite to_size_small by (unfold size_max1; nia). rewrite (mem_write_full h a la); [|exact Ha|rewrite DW; exact D4|exact La]. cbn [rbind].
      set (h1 := set_nth h a _).
      assert (Hb1 : holds h1 b' (BMem lb)) by (unfold holds, h1; rewrite set_other by congruence; exact Hb).
      rewrite C2. rewrite (mem_write_full h1 b' lb); [|exact Hb1|rewrite repeat_length; lia|lia]. cbn [rbind].
      set (h2 := set_nth h1 b' _).
      assert (Hb2 : holds h2 b' (BMem (map Some (repeat nul (Z.to_nat (d_out d * 4)))))) by (unfold holds, h2, h1; apply set_same; rewrite length_set_nth; exact LTb).
      rewrite to_size_small by (unfold size_max1; nia).
      rewrite (mem_write_full h2 b' _ _ _ Hb2); [|rewrite DB; exact D5|rewrite map_length, repeat_length; lia]. cbn [rbind].
      set (h3 := set_nth h2 b' _). rewrite FW, FB. cbn [orb].
      assert (O : forall x, x <> a -> x <> b' -> nth_error h3 x = nth_error h x).
      { intros x X1 X2. unfold h3, h2, h1. rewrite !set_other by congruence. reflexivity. }
      assert (L3 : length h3 = length h) by (unfold h3, h2, h1; rewrite !length_set_nth; reflexivity).
      assert (OT : forall x, In x (flat_map layer_blocks ls') -> nth_error h3 x = nth_error h x).
      { intros x Hx. apply O; intros ->; [apply N1; right; exact Hx|exact (N2 Hx)]. }
      destruct (IH h3 ls' r) as (h4 & E4 & L4 & F4 & S4); [exact (Forall_inv_tail D)|exact P'| |exact N''|].
      { clear -F' OT. induction F' as [|d0 l0 ds0 ls0 H F IH]; constructor.
        - destruct H as (Q1 & Q2 & (a0 & la0 & Q3 & Q4 & Q5) & (b0 & lb0 & Q6 & Q7 & Q8)). split; [exact Q1|]. split; [exact Q2|]. split.
          + exists a0, la0. split; [exact Q3|]. split; [|exact Q5]. unfold holds. rewrite OT; [exact Q4|]. cbn [flat_map]. apply in_or_app. left. unfold layer_blocks. rewrite Q3, Q6. left. reflexivity.
          + exists b0, lb0. split; [exact Q6|]. split; [|exact Q8]. unfold holds. rewrite OT; [exact Q7|]. cbn [flat_map]. apply in_or_app. left. unfold layer_blocks. rewrite Q3, Q6. right. left. reflexivity.
        - apply IH. intros x Hx. apply OT. cbn [flat_map]. apply in_or_app. right. exact Hx. }
      exists h4. split; [exact E4|]. split; [lia|]. split.
      + constructor; [|exact F4]. split.
        * exists a. split; [exact Ea|]. unfold holds. rewrite S4 by (intros Q; apply N1; right; exact Q).
          unfold h3, h2, h1. rewrite !set_other by congruence. rewrite set_same by exact LTa. rewrite DW. reflexivity.
        * exists b'. split; [exact Eb|]. unfold holds. rewrite S4 by exact N2. unfold h3. rewrite set_same; [rewrite DB; reflexivity|].
          unfold h2, h1. rewrite !length_set_nth. exact LTb.
      + intros x Hx. cbn [flat_map] in Hx. unfold layer_blocks in Hx at 1. rewrite Ea, Eb in Hx. cbn [field_blocks app In] in Hx.
        rewrite S4 by (intros Q; apply Hx; right; right; exact Q). apply O; intros E; apply Hx; [left|right; left]; congruence.
  Qed.

  Lemma forall2_map_l {A B C} (f : A -> B) (P : B -> C -> Prop) l m : Forall2 P (map f l) m -> Forall2 (fun a c => P (f a) c) l m.
  Proof. revert m. induction l as [|x l IH]; intros m H; inversion H; subst; constructor; [assumption|apply IH; assumption]. Qed.

  (** cleaning up *)
  Lemma load_end_ok h p cs wba q : is_list h p cs ->
    live h wba -> ~ In wba (blocks_of cs) ->
    (forall ret ret0 ns, q = Some (ret, ret0, ns) -> live h ret /\ live h ret0 /\ ret <> ret0 /\ ret <> wba /\ ret0 <> wba /\ ~ In ret (blocks_of cs) /\ ~ In ret0 (blocks_of cs)) ->
    exists h', load_end h p (Some wba) q = Ok h' /\ length h' = length h
      /\ (forall x, In x (blocks_of cs) \/ x = wba \/ (exists ret ret0 ns, q = Some (ret, ret0, ns) /\ (x = ret \/ x = ret0)) -> dead h' x)
      /\ (forall x, ~ In x (blocks_of cs) -> x <> wba -> (forall ret ret0 ns, q = Some (ret, ret0, ns) -> x <> ret /\ x <> ret0) -> nth_error h' x = nth_error h x).
  Proof.
    intros HL LW NW HQ. pose proof (is_list_len _ _ _ HL) as LL. unfold load_end.
    destruct (free_chain cs h p (S (length h)) HL) as (h1 & E1 & L1 & D1 & S1); [lia|]. rewrite E1. cbn [rbind].
    assert (LW1 : live h1 wba) by (apply (live_same h); [apply S1; exact NW|exact LW]).
    rewrite (live_free _ _ LW1). cbn [rbind]. set (h2 := set_nth h1 wba None).
    assert (L2 : length h2 = length h) by (unfold h2; rewrite length_set_nth; exact L1).
    assert (DW : dead h2 wba) by (unfold dead, h2; apply set_same; apply live_lt; exact LW1).
    assert (O2 : forall x, x <> wba -> nth_error h2 x = nth_error h1 x) by (intros x Hx; unfold h2; apply set_other; congruence).
    assert (D2 : forall x, In x (blocks_of cs) -> dead h2 x).
    { intros x Hx. unfold dead. rewrite O2 by (intros ->; contradiction). apply D1. exact Hx. }
    destruct q as [[[ret ret0] ns]|].
    - destruct (HQ _ _ _ eq_refl) as (Q1 & Q2 & Q3 & Q4 & Q5 & Q6 & Q7).
      assert (K0 : live h2 ret0). { apply (live_same h1); [apply O2; exact Q5|]. apply (live_same h); [apply S1; exact Q7|exact Q2]. }
      rewrite (live_free _ _ K0). cbn [rbind].
      assert (K1 : live (set_nth h2 ret0 None) ret).
      { apply (live_same h2); [apply set_other; congruence|]. apply (live_same h1); [apply O2; exact Q4|]. apply (live_same h); [apply S1; exact Q6|exact Q1]. }
      rewrite (live_free _ _ K1). eexists. split; [reflexivity|]. split; [rewrite !length_set_nth; exact L2|]. split.
      + intros x Hx. unfold dead. destruct (Nat.eq_dec x ret) as [-> |N1]; [apply set_same; rewrite length_set_nth; apply live_lt in K1; rewrite length_set_nth in K1; exact K1|].
        rewrite set_other by congruence. destruct (Nat.eq_dec x ret0) as [-> |N2]; [apply set_same; apply live_lt; exact K0|].
        rewrite set_other by congruence. destruct Hx as [Hx|[-> |(r & r0 & n & E & Hx)]]; [apply D2; exact Hx|exact DW|].
        injection E as <- <- <-. destruct Hx; congruence.
      + intros x X1 X2 X3. destruct (X3 _ _ _ eq_refl) as (X4 & X5). rewrite !set_other by congruence. rewrite O2 by exact X2. apply S1. exact X1.
    - exists h2. split; [reflexivity|]. split; [exact L2|]. split.
      + intros x [Hx|[-> |(r & r0 & n & E & _)]]; [apply D2; exact Hx|exact DW|discriminate].
      + intros x X1 X2 _. rewrite O2 by exact X2. apply S1. exact X1.
  Qed.

  Theorem load_core h0 st ar h1 p cs ds s names pre post :
    list_load alloc h0 ar = Ok (h1, p) -> is_list h1 p cs -> (forall x, In x (blocks_of cs) <-> length h0 <= x < length h1) ->
    (forall x, x < length h0 -> nth_error h1 x = nth_error h0 x) ->
    arrays_of cs = pre ++ s :: post -> parameter_arrays ds (pre ++ post) -> names_array names s -> network ds ->
    length ds <= length names -> (Z.of_nat (length names) < 2147483648)%Z -> (Z.of_nat (length (np_data s)) < 4611686018427387904)%Z ->
    Forall (short_symbol lib_opens) names ->
    Forall2 (fun name d => function_for lib_opens dlsym (Some name) (d_f d)) (firstn (length ds) names) ds ->
    exists h' st' nn, net_load alloc mem lib_opens dlsym h0 st ar = Ok (h', st', Some nn)
      /\ net_has h' ds nn /\ cn_loss nn = None
      /\ (forall x, x < length h0 -> nth_error h' x = nth_error h0 x)
      /\ (forall x, length h0 <= x < length h' -> In x (net_blocks nn) \/ dead h' x)
      /\ (forall x, In x (net_blocks nn) -> length h0 <= x)
      /\ exists l, st' = st ++ l.
  Proof.
    intros EL HL BR O01 AR PA NA (NE & DO & CH & LNN) LN LNM LD SH FF. unfold net_load. rewrite EL. cbn [rbind].
    assert (LC : length cs = S (2 * length ds)).
    { pose proof (f_equal (@length npy) AR) as Q. unfold arrays_of in Q. rewrite map_length, app_length in Q. cbn [length] in Q.
      pose proof (params_len _ _ PA) as Q2. rewrite app_length in Q2. lia. }
    pose proof HL as (HC & HND). destruct p as [q|]; [|inversion HC; subst; cbn in LC; lia]. set (p := Some q) in *.
    pose proof (is_list_len _ _ _ HL) as LL.
    unfold list_length. rewrite (length_chain h1 p cs HC) by (unfold size_max1; lia). cbn [rbind].
    rewrite malloc_ok by apply HM. set (h2 := h1 ++ [_]). assert (L2 : length h2 = S (length h1)) by (unfold h2; apply app_len1).
    (* the cells *)
    assert (SC : exists cpre c cpost, cs = cpre ++ c :: cpost /\ arrays_of cpre = pre /\ c_m c = s /\ arrays_of cpost = post).
    { unfold arrays_of in AR. exists (firstn (length pre) cs).
      destruct (skipn (length pre) cs) as [|c cpost] eqn:ES.
      { exfalso. pose proof (f_equal (@length npy) AR) as Q. rewrite map_length, app_length in Q. cbn in Q.
        pose proof (skipn_length (length pre) cs) as Q2. rewrite ES in Q2. cbn in Q2. lia. }
      exists c, cpost. assert (E : cs = firstn (length pre) cs ++ c :: cpost) by (rewrite <- ES; symmetry; apply firstn_skipn).
      split; [exact E|]. rewrite E in AR. rewrite map_app in AR. cbn [map] in AR.
      assert (LE : length (map c_m (firstn (length pre) cs)) = length pre).
      { rewrite map_length. apply firstn_length_le. pose proof (skipn_length (length pre) cs) as Q2. rewrite ES in Q2. cbn in Q2. lia. }
      assert (E1 : map c_m (firstn (length pre) cs) = pre).
      { pose proof (f_equal (firstn (length pre)) AR) as Q. rewrite !firstn_app, LE, Nat.sub_diag in Q. cbn [firstn] in Q.
        rewrite !app_nil_r in Q. rewrite firstn_all2 in Q by lia. rewrite firstn_all in Q. exact Q. }
      rewrite E1 in AR. apply app_inv_head in AR. split; [exact E1|]. inversion AR; split; reflexivity. }
    destruct SC as (cpre & c & cpost & ECS & EP1 & EC & EP2).
    assert (C2 : chain h2 p cs).
    { eapply chain_frame; [exact HC|]. intros x Hx. unfold h2. apply app_old. eapply chain_lt; eassumption. }
    assert (NN : names <> []). { destruct names; [|congruence]. destruct ds; [congruence|]. cbn in LN. lia. }
    assert (FT : Forall (fun c => np_type (c_m c) = "f"%char) (cpre ++ cpost)).
    { pose proof (params_types _ _ PA) as Q. rewrite <- EP1, <- EP2 in Q. unfold arrays_of in Q. rewrite <- map_app in Q. apply Forall_map in Q. exact Q. }
    rewrite ECS in C2.
    destruct (scan_names h2 cpre p c cpost (S (length h2)) [] names C2 FT) as (e & ESC); try assumption.
    { rewrite EC. exact NA. } { rewrite EC. exact LD. } { lia. } { rewrite <- ECS. lia. }
    rewrite ESC. cbn [rbind negb app].
    assert (EWB : arrays_of (cpre ++ cpost) = pre ++ post). { unfold arrays_of in *. rewrite map_app, EP1, EP2. reflexivity. }
    rewrite EWB. set (wb := pre ++ post) in *. pose proof (params_len _ _ PA) as LW.
    assert (EV : Nat.even (length wb) = true) by (rewrite LW; apply Nat.even_spec; exists (length ds); reflexivity).
    rewrite EV. cbn [negb]. assert (E2 : length wb / 2 = length ds) by (rewrite LW, Nat.mul_comm; apply Nat.div_mul; discriminate). rewrite E2.
    destruct ds as [|d0 ds0] eqn:EDS; [congruence|]. rewrite <- EDS in *.
    assert (W0 : exists w, wb_at wb 0 = Ok w /\ shape_at w 0 = Ok (d_in d0)).
    { rewrite EDS in PA. destruct (params_cons _ _ _ PA) as (w & b & r & -> & HW & _). exists w. split; [reflexivity|]. unfold shape_at. destruct HW as (_ & _ & -> & _). reflexivity. }
    destruct W0 as (w & -> & EW). cbn [rbind]. rewrite EW. cbn [rbind]. rewrite (out_sizes_ok ds wb DO PA). cbn [rbind].
    rewrite int_of_size_small. 2:{ rewrite EDS in DO. pose proof (Forall_inv DO) as (Q & _). lia. }
    assert (ESZ : d_in d0 :: map d_out ds = sizes_of ds) by (rewrite EDS; reflexivity). rewrite ESZ.
    set (h3 := h2 ++ _). assert (L3 : length h3 = S (S (S (length h1)))) by (unfold h3; rewrite app_length; cbn; lia).
    cbn [option_map snd].
    destruct (create_network mem lib_opens dlsym h3 st (length ds) (sizes_of ds) (map Some names)) as (h4 & st' & nn & ECR & NET & LOSS & FN & BL & O34 & PST).
    { rewrite EDS. cbn. lia. } { rewrite EDS. cbn [sizes_of length]. rewrite map_length. reflexivity. }
    { apply desc_fit; assumption. } { rewrite map_length. exact LN. }
    { apply Forall_map. eapply Forall_impl; [|exact SH]. cbn. intros a Q s0 E. injection E as <-. exact Q. }
    { exact HM. }
    match goal with |- context[rbind (create ?a ?b ?c ?d ?e ?f ?g ?k) _] => replace (create a b c d e f g k) with (Ok (h4, st', Some nn)) by (symmetry; exact ECR) end.
    cbn [rbind].
    destruct NET as (FLAY & LVS & LVA & NDN). rewrite (steps_sizes ds CH) in FLAY. apply forall2_map_l in FLAY. cbn [fst snd] in FLAY.
    pose proof NDN as ND2. unfold net_blocks in ND2. inversion ND2 as [|? ? NS1 ND3]; subst x l. inversion ND3 as [|? ? NA1 ND4]; subst x l. cbn [In] in NS1.
    destruct (copy_ok ds h4 (cn_layers nn) wb DO PA FLAY ND4) as (h5 & ECP & L5 & F5 & O45). rewrite ECP. cbn [rbind].
    assert (BLL : forall x, In x (net_blocks nn) -> length h3 <= x) by (intros x Hx; apply BL in Hx; lia).
    assert (BLF : forall x, In x (flat_map layer_blocks (cn_layers nn)) -> length h3 <= x) by (intros x Hx; apply BLL; right; right; exact Hx).
    assert (O35 : forall x, x < length h3 -> nth_error h5 x = nth_error h3 x).
    { intros x Hx. rewrite O45; [apply O34; exact Hx|]. intros Q. apply BLF in Q. lia. }
    assert (LIVE3 : forall x, length h1 <= x < length h3 -> live h5 x).
    { intros x Hx. apply (live_same h3); [apply O35; lia|]. unfold h3, h2. rewrite <- app_assoc. apply new_live.
      - cbn [app]. constructor; [discriminate|]. constructor; [discriminate|]. constructor; [discriminate|constructor].
      - rewrite app_length. cbn [app length]. lia. }
    assert (HL5 : is_list h5 p cs).
    { split; [|exact HND]. eapply chain_frame; [exact HC|]. intros x Hx. pose proof (proj1 (BR x) Hx).
      rewrite O35 by lia. unfold h3, h2. rewrite <- app_assoc. apply nth_error_app1. lia. }
    assert (H30 : forall x, x < length h0 -> x < length h1).
    { intros x Hx. destruct cs as [|c1 cs1]; [cbn in LC; lia|]. pose proof (proj1 (BR (c_node c1)) (or_introl eq_refl)). lia. }
    destruct (load_end_ok h5 p cs (length h1) (Some (length h2, S (length h2), names))) as (h6 & EE & L6 & D6 & S6).
    { exact HL5. } { apply LIVE3. lia. } { intros Q. apply BR in Q. lia. }
    { intros r r0 ns E. injection E as <- <- <-. split; [apply LIVE3; lia|]. split; [apply LIVE3; lia|]. split; [lia|]. split; [lia|]. split; [lia|].
      split; intros Q; apply BR in Q; lia. }
    rewrite EE. cbn [rbind]. eexists. eexists. eexists. split; [reflexivity|].
    assert (O56 : forall x, length h3 <= x -> nth_error h6 x = nth_error h5 x).
    { intros x Hx. apply S6; [intros Q; apply BR in Q; lia|lia|]. intros r r0 ns E. injection E as <- <- <-. lia. }
    split; [|split; [exact LOSS|split; [|split; [|split; [|exact PST]]]]].
    - split; [|split; [|split]].
      + assert (FD : Forall2 (fun d l => cl_func l = Some (d_f d)) ds (cn_layers nn)).
        { clear -FF FN. rewrite firstn_map in FN. apply forall2_map_l in FN. revert FN. generalize (cn_layers nn) as ls. revert FF.
          generalize (firstn (length ds) names) as ns. induction ds as [|d ds IH]; intros ns FF ls FN; inversion FF; subst; inversion FN; subst; constructor.
          - match goal with H : exists f, _ |- _ => destruct H as (f & E & Q) end. rewrite E. f_equal. eapply function_for_fun; eassumption.
          - eapply IH; eassumption. }
        assert (BLF2 : forall l, In l (cn_layers nn) -> forall x, In x (layer_blocks l) -> length h3 <= x).
        { intros l Il x Hx. apply BLF. apply in_flat_map. exists l. split; assumption. }
        clear -FLAY F5 FD O56 BLF2. induction FLAY as [|d l ds ls H FLAY IH]; [constructor|].
        inversion F5 as [|? ? ? ? (W & B) F5']; subst. inversion FD as [|? ? ? ? FD1 FD']; subst. constructor.
        * destruct H as (Q1 & Q2 & _). split; [exact Q1|]. split; [exact Q2|].
          destruct W as (a & EA & HA). destruct B as (b & EB & HB).
          assert (IN : forall x, x = a \/ x = b -> length h3 <= x).
          { intros x Hx. apply (BLF2 l (or_introl eq_refl)). unfold layer_blocks. rewrite EA, EB. cbn. destruct Hx as [-> | ->]; tauto. }
          split; [|split; [|exact FD1]].
          -- exists a. split; [exact EA|]. unfold holds. rewrite O56 by (apply IN; left; reflexivity). exact HA.
          -- exists b. split; [exact EB|]. unfold holds. rewrite O56 by (apply IN; right; reflexivity). exact HB.
        * apply IH; try assumption. intros l' Il. apply BLF2. right. exact Il.
      + apply (live_same h5); [apply O56; apply BLL; left; reflexivity|]. apply (live_same h4); [apply O45; intros Q; apply NS1; right; exact Q|exact LVS].
      + apply (live_same h5); [apply O56; apply BLL; right; left; reflexivity|]. apply (live_same h4); [apply O45; exact NA1|exact LVA].
      + exact NDN.
    - intros x Hx. pose proof (H30 x Hx). rewrite S6.
      + rewrite O35 by lia. unfold h3, h2. rewrite <- app_assoc. rewrite nth_error_app1 by lia. apply O01. exact Hx.
      + intros Q. apply BR in Q. lia.
      + lia.
      + intros r r0 ns E. injection E as <- <- <-. lia.
    - intros x Hx. destruct (Nat.lt_ge_cases x (length h3)) as [LT|GE].
      + right. apply D6. destruct (Nat.lt_ge_cases x (length h1)) as [LT1|GE1]; [left; apply BR; lia|].
        destruct (Nat.eq_dec x (length h1)) as [-> |]; [right; left; reflexivity|].
        right. right. exists (length h2), (S (length h2)), names. split; [reflexivity|]. lia.
      + left. apply BL. lia.
    - intros x Hx. apply BLL in Hx. destruct (Nat.le_gt_cases (length h0) x) as [|Q]; [assumption|]. apply H30 in Q. lia.
  Qed.
End Load.
