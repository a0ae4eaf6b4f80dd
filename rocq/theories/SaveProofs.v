(** SaveProofs.v -- proofs about saving networks. *)
From Coq Require Import ZArith Bool String Ascii List Lia.
From Verif Require Import Base BaseProofs Activation Logger LoggerProofs Npy NpyList SpecNpy NpyProofs SpecList ListProofs Prop_List
  Registry SpecRegistry Create SpecCreate SpecLog Prop_Registry CreateProofs Prop_Create NetFile SpecNetFile LoadProofs.
Import ListNotations.
Local Open Scope nat_scope.

(** ** names of members *)
Lemma digits_chars s : forall acc z, digits_value acc s = Some z -> Forall a_digit s.
Proof.
  induction s as [|c s IH]; intros acc z E; [constructor|]. cbn [digits_value] in E.
  destruct ((48 <=? nat_of_ascii c) && (nat_of_ascii c <=? 57)) eqn:EC; [|discriminate].
  apply andb_true_iff in EC. destruct EC as (E1 & E2). apply Nat.leb_le in E1. apply Nat.leb_le in E2.
  constructor; [split; assumption|]. eapply IH. exact E.
Qed.
Lemma fmt_d_digits z : (0 <= z < 2147483648)%Z -> Forall a_digit (fmt_d z) /\ digits_value 0 (fmt_d z) = Some z.
Proof.
  intros H. destruct (numeral_pos z (fmt_d z)) as (_ & E); [lia|apply fmt_d_numeral; lia|]. split; [|exact E]. eapply digits_chars. exact E.
Qed.

Definition weight_name (i : Z) : bytes := chars "weight_" ++ fmt_d i.
Definition bias_name (i : Z) : bytes := chars "bias_" ++ fmt_d i.
Definition ascii_name (s : bytes) : Prop := Forall (fun c => nat_of_ascii c < 128) s.

Lemma weight_format i : vformat (chars "weight_%d") [i] = Ok (weight_name i).
Proof. unfold weight_name. cbn. rewrite app_nil_r. reflexivity. Qed.
Lemma bias_format i : vformat (chars "bias_%d") [i] = Ok (bias_name i).
Proof. unfold bias_name. cbn. rewrite app_nil_r. reflexivity. Qed.

Lemma digit_props s : Forall a_digit s -> plain s /\ ascii_name s.
Proof.
  intros F. split.
  - intros I. rewrite Forall_forall in F. apply F in I. unfold a_digit in I. vm_compute in I. lia.
  - eapply Forall_impl; [|exact F]. unfold a_digit. intros c. lia.
Qed.
Lemma plain_app s t : plain s -> plain t -> plain (s ++ t).
Proof. intros P Q I. apply in_app_or in I. destruct I; [exact (P H)|exact (Q H)]. Qed.
Lemma name_good (pre : string) i : (0 <= i < 2147483648)%Z -> plain (chars pre) -> ascii_name (chars pre) -> length (chars pre) <= 60 ->
  plain (chars pre ++ fmt_d i) /\ length (chars pre ++ fmt_d i) <= 80 /\ ascii_name (chars pre ++ fmt_d i).
Proof.
  intros H P A L. destruct (fmt_d_digits i H) as (D & _). apply digit_props in D. destruct D as (D1 & D2).
  pose proof (fmt_d_len i ltac:(lia)). split; [apply plain_app; assumption|]. split; [rewrite app_length; lia|].
  apply Forall_app. split; assumption.
Qed.
Lemma plain_text (s : string) : existsb (fun c => Ascii.eqb c "%") (chars s) = false -> plain (chars s).
Proof.
  intros E I. assert (Q : existsb (fun c => Ascii.eqb c "%") (chars s) = true); [|congruence].
  apply existsb_exists. exists "%"%char. split; [exact I|reflexivity].
Qed.
Lemma ascii_text (s : string) : forallb (fun c => nat_of_ascii c <? 128) (chars s) = true -> ascii_name (chars s).
Proof. intros E. unfold ascii_name. rewrite Forall_forall. rewrite forallb_forall in E. intros c I. apply Nat.ltb_lt. apply E. exact I. Qed.
Lemma weight_good i : (0 <= i < 2147483648)%Z -> plain (weight_name i) /\ length (weight_name i) <= 80 /\ ascii_name (weight_name i).
Proof. intros H. apply name_good; [exact H|apply plain_text; reflexivity|apply ascii_text; reflexivity|cbn; lia]. Qed.
Lemma bias_good i : (0 <= i < 2147483648)%Z -> plain (bias_name i) /\ length (bias_name i) <= 80 /\ ascii_name (bias_name i).
Proof. intros H. apply name_good; [exact H|apply plain_text; reflexivity|apply ascii_text; reflexivity|cbn; lia]. Qed.

(** the names of the arrays of n layers, from number i on *)
Fixpoint param_names (n : nat) (i : Z) : list bytes :=
  match n with 0 => [] | S n => weight_name i :: bias_name i :: param_names n (i + 1) end.
Lemma param_names_in n : forall i s, In s (param_names n i) ->
  exists j, (i <= j < i + Z.of_nat n)%Z /\ (s = weight_name j \/ s = bias_name j).
Proof.
  induction n as [|n IH]; intros i s; cbn [param_names]; [intros []|]. intros [<- |[<- |I]].
  - exists i. split; [lia|left; reflexivity].
  - exists i. split; [lia|right; reflexivity].
  - destruct (IH _ _ I) as (j & L & H). exists j. split; [lia|exact H].
Qed.
Lemma fmt_d_inj i j : (0 <= i < 2147483648)%Z -> (0 <= j < 2147483648)%Z -> fmt_d i = fmt_d j -> i = j.
Proof. intros Hi Hj E. destruct (fmt_d_digits i Hi) as (_ & E1). destruct (fmt_d_digits j Hj) as (_ & E2). rewrite E in E1. congruence. Qed.
Lemma param_names_nodup n : forall i, (0 <= i)%Z -> (i + Z.of_nat n < 2147483648)%Z -> NoDup (param_names n i).
Proof.
  induction n as [|n IH]; intros i H0 H1; cbn [param_names]; [constructor|]. constructor; [|constructor; [|apply IH; lia]].
  - intros [Q|Q]; [unfold bias_name, weight_name in Q; cbn in Q; discriminate|].
    apply param_names_in in Q. destruct Q as (j & L & [Q|Q]).
    + unfold weight_name in Q. apply app_inv_head in Q. apply fmt_d_inj in Q; lia.
    + unfold bias_name, weight_name in Q; cbn in Q; discriminate.
  - intros Q. apply param_names_in in Q. destruct Q as (j & L & [Q|Q]).
    + unfold bias_name, weight_name in Q; cbn in Q; discriminate.
    + unfold bias_name in Q. apply app_inv_head in Q. apply fmt_d_inj in Q; lia.
Qed.

(** ** arrays *)
Definition w_array (d : ndesc) : npy := builder (d_w d) [d_in d; d_out d] "f" 4.
Definition b_array (d : ndesc) : npy := builder (d_b d) [d_out d] "f" 4.
Definition param_arrays (ds : list ndesc) : list npy := flat_map (fun d => [w_array d; b_array d]) ds.

Lemma w_storable d : desc_ok d -> storable (w_array d).
Proof.
  intros (H1 & H2 & H3 & H4 & H5). unfold storable, w_array, builder, stored_dims. cbn [np_shape np_ndim np_elem np_type np_data firstn app length].
  unfold product. cbn [fold_right].
  split; [reflexivity|]. split; [lia|]. split; [repeat constructor; lia|]. split; [lia|]. split; [discriminate|]. split; [rewrite H4; ring|nia].
Qed.
Lemma b_storable d : desc_ok d -> storable (b_array d).
Proof.
  intros (H1 & H2 & H3 & H4 & H5). unfold storable, b_array, builder, stored_dims. cbn [np_shape np_ndim np_elem np_type np_data firstn app length].
  unfold product. cbn [fold_right].
  split; [reflexivity|]. split; [lia|]. split; [repeat constructor; lia|]. split; [lia|]. split; [discriminate|]. split; [rewrite H5; ring|nia].
Qed.
Lemma params_storable ds : Forall desc_ok ds -> Forall storable (param_arrays ds).
Proof.
  induction 1 as [|d ds H F IH]; [constructor|]. unfold param_arrays. cbn [flat_map app]. constructor; [apply w_storable; exact H|].
  constructor; [apply b_storable; exact H|exact IH].
Qed.
Lemma params_reloaded ds : Forall desc_ok ds -> parameter_arrays ds (map reloaded (param_arrays ds)).
Proof.
  induction 1 as [|d ds H F IH]; [constructor|]. unfold parameter_arrays, param_arrays. cbn [flat_map app map].
  constructor; [|constructor; [|exact IH]]; unfold float_array, reloaded, w_array, b_array, builder, stored_dims; cbn [np_shape np_ndim np_elem np_type np_data np_fortran firstn app length fst snd];
  repeat split.
Qed.

Lemma all_written_some s : all_written (map Some s) = Ok s.
Proof. induction s as [|c s IH]; [reflexivity|]. cbn [map all_written]. rewrite IH. reflexivity. Qed.
Lemma get_mem_holds h a l : holds h a (BMem l) -> get_mem h a = Ok l.
Proof. intros H. unfold get_mem. rewrite (h_get_holds _ _ _ H). reflexivity. Qed.

Section Save.
  Variable alloc : Z -> bool.
  Variable utf8 : bytes -> bool.
  Hypothesis HA : forall s, alloc s = true.

  (** the blocks a cell of save has allocated itself *)
  Definition own (c : cell) : list nat := [c_node c; c_arr c; c_name c].
  Definition owned (cs : list cell) : list nat := flat_map own cs.

  Lemma owned_blocks cs x : In x (blocks_of cs) <-> In x (owned cs) \/ In x (map c_data cs).
  Proof.
    induction cs as [|c cs IH]; [cbn; tauto|]. unfold blocks_of, owned in *. cbn [flat_map map]. rewrite !in_app_iff. cbn [cell_blocks own In]. tauto.
  Qed.

  (** one array; the blocks from L0 on are our own *)
  Lemma save_array_ok L0 h p cs d data dims (fmt : string) i str :
    is_list h p cs -> L0 <= length h -> d < L0 -> holds h d (BMem (map Some data)) -> ~ In d (map c_data cs) ->
    (forall x, In x (owned cs) <-> L0 <= x < length h) ->
    vformat (chars fmt) [i] = Ok str -> length str <= 80 ->
    exists h' p' c, save_array alloc h p (FPtr d) dims fmt i = Ok (h', p')
      /\ is_list h' p' (cs ++ [c]) /\ c_m c = builder data dims "f" 4 /\ c_str c = str /\ c_data c = d
      /\ length h' = 3 + length h /\ (forall x, In x (owned (cs ++ [c])) <-> L0 <= x < length h')
      /\ (forall x, x < L0 -> nth_error h' x = nth_error h x).
  Proof.
    intros HL LL LD HD ND OW HV LS. unfold save_array. rewrite HA. cbn [negb field_addr rbind].
    rewrite (get_mem_holds _ _ _ HD). cbn [rbind]. rewrite all_written_some. cbn [rbind h_new].
    set (m := builder data dims "f" 4). set (h1 := h ++ [Some (BArr m d)]).
    assert (L1 : length h1 = S (length h)) by (unfold h1; apply app_len1).
    assert (NB : forall x, In x (blocks_of cs) -> x < length h) by (destruct HL as (HC & _); apply (chain_lt _ _ _ HC)).
    destruct (append_list alloc h1 p cs (length h) d m (chars fmt) str [i]) as (h' & p' & E & IL & LH & O).
    - destruct HL as (HC & HN). split; [|exact HN]. eapply chain_frame; [exact HC|]. intros x Hx. unfold h1. apply app_old. apply NB. exact Hx.
    - unfold holds, h1. apply app_new.
    - eexists. unfold holds, h1. rewrite app_old by lia. exact HD.
    - lia.
    - intros Q. apply NB in Q. lia.
    - intros Q. apply owned_blocks in Q. destruct Q as [Q|Q]; [apply OW in Q; lia|contradiction].
    - exact HV.
    - exact LS.
    - apply HA.
    - apply HA.
    - exists h', p', (new_cell h1 (length h) d m str). split; [exact E|]. split; [exact IL|]. split; [reflexivity|]. split; [reflexivity|].
      split; [reflexivity|]. split; [lia|]. split.
      + intros x. unfold owned in *. rewrite flat_map_app, in_app_iff, OW. cbn [flat_map own new_cell app In c_node c_arr c_name]. rewrite LH, L1. lia.
      + intros x Hx. rewrite O; [unfold h1; apply app_old; lia|lia|].
        intros Q. assert (In x (owned cs)); [|apply OW in H; lia].
        unfold owned. apply in_map_iff in Q. destruct Q as (c & <- & Ic). apply in_flat_map. exists c. split; [exact Ic|left; reflexivity].
  Qed.

  Lemma save_layers_ok L0 ds : forall ls h p cs i,
    is_list h p cs -> L0 <= length h -> (forall x, In x (owned cs) <-> L0 <= x < length h) ->
    Forall2 (layer_has h) ds ls -> Forall (fun x => x < L0) (flat_map layer_blocks ls) ->
    NoDup (map c_data cs ++ flat_map layer_blocks ls) ->
    (0 <= i)%Z -> (i + Z.of_nat (length ds) < 2147483648)%Z ->
    exists h' p' cs', save_layers alloc h p ls i = Ok (h', p')
      /\ is_list h' p' (cs ++ cs') /\ arrays_of cs' = param_arrays ds /\ names_of cs' = param_names (length ds) i
      /\ map c_data cs' = flat_map layer_blocks ls
      /\ length h <= length h' /\ (forall x, In x (owned (cs ++ cs')) <-> L0 <= x < length h')
      /\ (forall x, x < L0 -> nth_error h' x = nth_error h x).
  Proof.
    induction ds as [|d ds IH]; intros ls h p cs i HL LL OW F LT ND I0 I1; inversion F as [|? l ? ls' HD F']; subst.
    - exists h, p, []. rewrite app_nil_r. cbn [save_layers].
      refine (conj eq_refl (conj HL (conj eq_refl (conj eq_refl (conj eq_refl (conj (le_n _) (conj OW _))))))). intros x _. reflexivity.
    - destruct HD as (EI & EO & (wa & EW & HW) & (ba & EB & HB) & EF). cbn [save_layers].
      assert (ELB : layer_blocks l = [wa; ba]) by (unfold layer_blocks; rewrite EW, EB; reflexivity).
      cbn [flat_map] in LT, ND. rewrite ELB in LT, ND. cbn [app] in LT, ND.
      pose proof (Forall_inv LT) as LW. pose proof (Forall_inv (Forall_inv_tail LT)) as LB. pose proof (Forall_inv_tail (Forall_inv_tail LT)) as LT'.
      cbv beta in LW, LB. cbn [length] in I1. pose proof (weight_good i ltac:(lia)) as (_ & W80 & _). pose proof (bias_good i ltac:(lia)) as (_ & B80 & _).
      pose proof (NoDup_remove_2 _ _ _ ND) as NW. pose proof (NoDup_remove_1 _ _ _ ND) as ND1.
      pose proof (NoDup_remove_2 _ _ _ ND1) as NBB.
      rewrite in_app_iff in NW, NBB. cbn [In] in NW.
      rewrite EW, EI, EO.
      destruct (save_array_ok L0 h p cs wa (d_w d) [d_in d; d_out d] "weight_%d" i (weight_name i)) as (h1 & p1 & c1 & E1 & IL1 & M1 & S1 & D1 & LN1 & OW1 & O1);
        try assumption; [tauto|apply weight_format|].
      rewrite E1. cbn [rbind fst snd]. rewrite EB.
      destruct (save_array_ok L0 h1 p1 (cs ++ [c1]) ba (d_b d) [d_out d] "bias_%d" i (bias_name i)) as (h2 & p2 & c2 & E2 & IL2 & M2 & S2 & D2 & LN2 & OW2 & O2);
        try assumption; [lia|unfold holds; rewrite O1 by lia; exact HB| |apply bias_format|].
      { rewrite map_app, in_app_iff. cbn [map In]. rewrite D1. intuition. }
      rewrite E2. cbn [rbind fst snd].
      destruct (IH ls' h2 p2 ((cs ++ [c1]) ++ [c2]) (i + 1)%Z) as (h' & p' & cs' & E & IL & AR & NM & DT & LN & OW' & O); try assumption; try lia.
      { assert (KEEP : forall a b, holds h a b -> a < L0 -> holds h2 a b).
        { intros a b Q La. unfold holds. rewrite O2, O1 by assumption. exact Q. }
        clear -F' LT' KEEP. revert LT'. induction F' as [|e l ds ls (EI & EO & (wa & EW & HW) & (ba & EB & HB) & EF) F' IH]; intros LT; constructor.
        - cbn [flat_map] in LT. apply Forall_app in LT. destruct LT as (LT & _). unfold layer_blocks in LT. rewrite EW, EB in LT. cbn in LT.
          split; [exact EI|]. split; [exact EO|]. split; [exists wa; split; [exact EW|apply KEEP; [exact HW|exact (Forall_inv LT)]]|].
          split; [exists ba; split; [exact EB|apply KEEP; [exact HB|exact (Forall_inv (Forall_inv_tail LT))]]|exact EF].
        - apply IH. cbn [flat_map] in LT. apply Forall_app in LT. apply LT. }
      { rewrite !map_app. cbn [map]. rewrite D1, D2, <- !app_assoc. exact ND. }
      exists h', p', (c1 :: c2 :: cs'). rewrite <- !app_assoc in IL, OW'. cbn [app] in IL, OW'.
      split; [exact E|]. split; [exact IL|].
      split; [unfold arrays_of, param_arrays in *; cbn [map flat_map app]; rewrite AR, M1, M2; reflexivity|].
      split; [unfold names_of in *; cbn [map length param_names]; rewrite NM, S1, S2; reflexivity|].
      split; [cbn [map flat_map]; rewrite DT, D1, D2, ELB; reflexivity|]. split; [lia|]. split; [exact OW'|].
      intros x Hx. rewrite O, O2, O1 by exact Hx. reflexivity.
  Qed.

  (** cleaning up frees our own blocks *)
  Lemma cleanup_ok cs : forall h p fuel, is_list h p cs -> length cs < fuel ->
    exists h', cleanup fuel h p = Ok h' /\ length h' = length h
      /\ (forall x, In x (owned cs) -> dead h' x)
      /\ (forall x, ~ In x (owned cs) -> nth_error h' x = nth_error h x).
  Proof.
    induction cs as [|c cs IH]; intros h p fuel (HC & HN) HF; (destruct fuel as [|f]; [lia|]); cbn [cleanup].
    - inversion HC; subst. exists h. repeat split. intros x [].
    - inversion HC as [|? next ? H1 Ha Hd Hs HC' E1 E2]; subst. pose proof (chain_lt _ _ _ HC') as LT.
      rewrite (get_node_holds _ _ _ _ _ H1). cbn [rbind].
      unfold blocks_of in HN. cbn [flat_map cell_blocks app] in HN. fold (blocks_of cs) in HN.
      inversion HN as [|? ? N1 HN1]; subst. inversion HN1 as [|? ? N2 HN2]; subst. inversion HN2 as [|? ? N3 HN3]; subst. inversion HN3 as [|? ? N4 HN4]; subst.
      cbn [In] in N1, N2, N3.
      pose proof (holds_lt _ _ _ H1) as B1. pose proof (holds_lt _ _ _ Ha) as B2. pose proof (holds_lt _ _ _ Hs) as B3.
      rewrite (h_free_holds _ _ _ Hs). cbn [rbind]. set (ha := set_nth h (c_name c) None).
      assert (Ha' : holds ha (c_arr c) (BArr (c_m c) (c_data c))). { unfold holds, ha. rewrite set_other by tauto. exact Ha. }
      rewrite (h_free_holds _ _ _ Ha'). cbn [rbind]. set (hb := set_nth ha (c_arr c) None).
      assert (H1' : holds hb (c_node c) (BNode (Some (c_arr c)) (Some (c_name c)) next)).
      { unfold holds, hb, ha. rewrite !set_other by intuition congruence. exact H1. }
      rewrite (h_free_holds _ _ _ H1'). cbn [rbind]. set (hc := set_nth hb (c_node c) None).
      assert (LC : length hc = length h). { unfold hc, hb, ha. rewrite !length_set_nth. reflexivity. }
      assert (OT : forall x, x <> c_node c -> x <> c_arr c -> x <> c_name c -> nth_error hc x = nth_error h x).
      { intros x X1 X2 X3. unfold hc, hb, ha. rewrite !set_other by congruence. reflexivity. }
      destruct (IH hc next f) as (h' & E & L & D & O).
      { split; [|exact HN4]. eapply chain_frame; [exact HC'|]. intros x Hx. apply OT; intros ->; tauto. }
      { cbn [length] in HF. lia. }
      assert (DOWN : forall x, x = c_node c \/ x = c_arr c \/ x = c_name c -> dead hc x).
      { intros x [->|[->| ->]]; unfold dead, hc, hb, ha.
        - apply set_same. rewrite !length_set_nth. exact B1.
        - rewrite set_other by intuition congruence. apply set_same. rewrite !length_set_nth. exact B2.
        - rewrite set_other by intuition congruence. rewrite set_other by intuition congruence. apply set_same. exact B3. }
      assert (NO : forall x, x = c_node c \/ x = c_arr c \/ x = c_name c -> ~ In x (owned cs)).
      { intros x Hx Q. assert (In x (blocks_of cs)) by (apply owned_blocks; left; exact Q). destruct Hx as [->|[->| ->]]; tauto. }
      exists h'. split; [exact E|]. split; [lia|]. split.
      + intros x Hx. unfold owned in Hx. cbn [flat_map own] in Hx. apply in_app_or in Hx. cbn [In] in Hx. destruct Hx as [Hx|Hx]; [|apply D; exact Hx].
        assert (X : x = c_node c \/ x = c_arr c \/ x = c_name c) by (clear -Hx; destruct Hx as [<- |[<- |[<- |[]]]]; auto). unfold dead. rewrite O by (apply NO; exact X). apply DOWN. exact X.
      + intros x Hx. unfold owned in Hx. cbn [flat_map own] in Hx. rewrite in_app_iff in Hx. cbn [In] in Hx.
        rewrite O by tauto. apply OT; intros EX; apply Hx; left; rewrite EX; cbn; auto 8.
  Qed.

  (** ** names of functions *)
  Lemma longest_from names : forall m, m <= fold_left (fun m (s : bytes) => if m <? length s then length s else m) names m
    /\ Forall (fun s => length s <= fold_left (fun m (s : bytes) => if m <? length s then length s else m) names m) names.
  Proof.
    induction names as [|s names IH]; intros m; cbn [fold_left]; [split; [lia|constructor]|].
    destruct (IH (if m <? length s then length s else m)) as (A & B).
    destruct (Nat.ltb_spec m (length s)) as [Q|Q]; (split; [lia|constructor; [lia|exact B]]).
  Qed.
  Lemma longest_ge names : Forall (fun s => length s <= longest names) names.
  Proof. apply longest_from. Qed.
  Lemma rows_length (n : nat) (names : list bytes) : Forall (fun s => length s <= n) names -> length (name_rows n names) = length names * n.
  Proof.
    induction 1 as [|s names L F IH]; [reflexivity|]. unfold name_rows in *. cbn [flat_map length]. rewrite !app_length, repeat_length, IH. lia.
  Qed.
  Lemma layer_names_ok st h ds ls : Forall2 (layer_has h) ds ls -> layer_names st ls = Ok (map (fun d => get_activation_name st (d_f d)) ds).
  Proof.
    induction 1 as [|d l ds ls (_ & _ & _ & _ & EF) F IH]; [reflexivity|]. cbn [layer_names map]. rewrite EF, IH. reflexivity.
  Qed.

  Hypothesis HU : forall s, Forall (fun c => nat_of_ascii c < 128) s -> utf8 s = true.

  Theorem save_core h st nn ds names :
    net_has h ds nn -> network ds -> names = map (fun d => get_activation_name st (d_f d)) ds ->
    Forall (fun s => s <> [] /\ ~ In nul s) names -> (Z.of_nat (longest names) * Z.of_nat (length names) < 2147483648)%Z ->
    exists h' ar, net_save alloc utf8 h st nn = Ok (h', Some ar)
      /\ (forall x, x < length h -> nth_error h' x = nth_error h x)
      /\ (forall x, length h <= x < length h' -> dead h' x)
      /\ map mb_name ar = param_names (length ds) 0 ++ [chars "activations"]
      /\ forall h0, exists h1 p cs s, list_load alloc h0 ar = Ok (h1, p) /\ is_list h1 p cs
          /\ (forall x, In x (blocks_of cs) <-> length h0 <= x < length h1)
          /\ (forall x, x < length h0 -> nth_error h1 x = nth_error h0 x)
          /\ arrays_of cs = map reloaded (param_arrays ds) ++ [s] /\ names_array names s
          /\ (Z.of_nat (length (np_data s)) < 2147483648)%Z.
  Proof.
    intros (FL & SE & AR & ND) (NE & DO & CH & LN) EN FN LO. unfold net_save.
    assert (LNS : length names = length ds) by (rewrite EN; apply map_length).
    assert (L1 : length ds <> 0) by (destruct ds; [congruence|cbn; lia]).
    set (L0 := length h).
    assert (LT : Forall (fun x => x < L0) (flat_map layer_blocks (cn_layers nn))).
    { clear -FL. unfold L0. induction FL as [|d l ds ls (_ & _ & (wa & EW & HW) & (ba & EB & HB) & _) F IH]; cbn [flat_map]; [constructor|].
      apply Forall_app. split; [|exact IH]. unfold layer_blocks. rewrite EW, EB. cbn. repeat constructor; eapply holds_lt; eassumption. }
    destruct (save_layers_ok L0 ds (cn_layers nn) h None [] 0%Z) as (h1 & p1 & cs1 & E1 & IL1 & AR1 & NM1 & DT1 & LN1 & OW1 & O1);
      try assumption; try lia.
    { split; constructor. } { intros x. cbn. unfold L0. split; [tauto|lia]. }
    { cbn [map app]. unfold net_blocks in ND. inversion ND as [|? ? _ ND1]; subst. inversion ND1; assumption. }
    cbn [app] in IL1, OW1. rewrite E1. cbn [rbind]. rewrite (layer_names_ok st _ _ _ FL), <- EN. cbn [rbind].
    unfold mul_int. rewrite to_int_ok by lia. cbn [rbind h_new]. cbv zeta.
    set (n := longest names) in *. set (rows := name_rows n names).
    assert (LR : length rows = length names * n) by (apply rows_length; apply longest_ge).
    set (m := builder rows [Z.of_nat (length names)] "S" (Z.of_nat n)).
    set (h2 := h1 ++ [Some (BMem (map Some rows))]). assert (LN2 : length h2 = S (length h1)) by (unfold h2; apply app_len1).
    rewrite HA. cbn [negb].
    set (h3 := h2 ++ [Some (BArr m (length h1))]). assert (LN3 : length h3 = S (length h2)) by (unfold h3; apply app_len1).
    assert (NB : forall x, In x (blocks_of cs1) -> x < length h1) by (destruct IL1 as (HC & _); apply (chain_lt _ _ _ HC)).
    destruct (append_list alloc h3 p1 cs1 (length h2) (length h1) m (chars "activations") (chars "activations") []) as (h4 & p4 & E4 & IL4 & LN4 & O4).
    { destruct IL1 as (HC & HN). split; [|exact HN]. eapply chain_frame; [exact HC|]. intros x Hx. pose proof (NB x Hx). unfold h3. rewrite app_old by lia. unfold h2. rewrite app_old by lia. reflexivity. }
    { unfold holds, h3. apply app_new. }
    { eexists. unfold holds, h3. rewrite app_old by lia. unfold h2. apply app_new. }
    { lia. } { intros Q. apply NB in Q. lia. } { intros Q. apply NB in Q. lia. }
    { apply vformat_plain. apply plain_text. reflexivity. } { cbn. lia. } { apply HA. } { apply HA. }
    rewrite E4. cbn [rbind fst snd]. set (c := new_cell h3 (length h2) (length h1) m (chars "activations")) in *.
    set (cs := cs1 ++ [c]) in *.
    assert (SM : storable m).
    { unfold storable, m, builder, stored_dims. cbn [np_shape np_ndim np_elem np_type np_data firstn app length]. unfold product. cbn [fold_right].
      assert (N1 : 1 <= n).
      { destruct names as [|s0 r]; [cbn in LNS; lia|]. pose proof (Forall_inv (longest_ge (s0 :: r))) as Q. fold n in Q. pose proof (Forall_inv FN) as (Q2 & _).
        destruct s0; [congruence|]. cbn [length] in Q. lia. }
      split; [reflexivity|]. split; [lia|]. split; [repeat constructor; nia|]. split; [lia|]. split; [discriminate|]. split; [rewrite LR; nia|nia]. }
    assert (ARC : arrays_of cs = param_arrays ds ++ [m]). { unfold cs, arrays_of in *. rewrite map_app, AR1. reflexivity. }
    assert (NMC : names_of cs = param_names (length ds) 0 ++ [chars "activations"]). { unfold cs, names_of in *. rewrite map_app, NM1. reflexivity. }
    assert (PN : forall s, In s (names_of cs) -> plain s /\ length s <= 80 /\ ascii_name s).
    { intros s. rewrite NMC, in_app_iff. intros [Q|[<- |[]]].
      - apply param_names_in in Q. destruct Q as (j & LJ & [-> | -> ]); [apply weight_good; lia|apply bias_good; lia].
      - split; [apply plain_text; reflexivity|]. split; [cbn; lia|apply ascii_text; reflexivity]. }
    destruct (npz_core alloc utf8 h4 p4 cs 0%Z IL4) as (ar & ES & NA & LA & LD).
    { unfold cs. destruct cs1; discriminate. }
    { assert (Q : Forall storable (arrays_of cs)); [|unfold arrays_of in Q; rewrite Forall_map in Q; exact Q].
      rewrite ARC. apply Forall_app. split; [apply params_storable; exact DO|constructor; [exact SM|constructor]]. }
    { rewrite Forall_forall. intros x Hx. destruct (PN (c_str x)) as (Q1 & Q2 & Q3); [unfold names_of; apply in_map; exact Hx|].
      split; [exact Q1|]. split; [exact Q2|]. apply HU. exact Q3. }
    { rewrite NMC. apply nodup_app. split; [apply param_names_nodup; lia|]. split; [constructor; [intros []|constructor]|].
      intros x Q [<- |[]]. apply param_names_in in Q. destruct Q as (j & _ & [Q|Q]); unfold weight_name, bias_name in Q; cbn in Q; discriminate. }
    { split; [apply HA|]. split; [apply HA|]. rewrite Forall_forall. intros. repeat split; apply HA. }
    unfold list_save. rewrite ES. cbn [rbind].
    pose proof (is_list_len _ _ _ IL4) as LL4.
    destruct (cleanup_ok cs h4 p4 (S (length h4)) IL4 ltac:(lia)) as (h5 & E5 & LN5 & D5 & O5).
    rewrite E5. cbn [rbind].
    assert (OWC : forall x, In x (owned cs) <-> L0 <= x < length h4 /\ x <> length h1).
    { intros x. unfold cs, owned. rewrite flat_map_app, in_app_iff. fold (owned cs1). rewrite OW1.
      cbn [flat_map own app In]. unfold c, new_cell. cbn [c_node c_arr c_name]. rewrite LN4, LN3, LN2. lia. }
    assert (KD : nth_error h5 (length h1) = Some (Some (BMem (map Some rows)))).
    { rewrite O5 by (rewrite OWC; tauto). rewrite O4.
      - unfold h3. rewrite app_old by lia. unfold h2. apply app_new.
      - lia.
      - intros Q. apply in_map_iff in Q. destruct Q as (c' & EQ & IC). assert (In (length h1) (blocks_of cs1)); [|pose proof (NB _ H); lia].
        rewrite <- EQ. unfold blocks_of. apply in_flat_map. exists c'. split; [exact IC|left; reflexivity]. }
    rewrite (h_free_holds _ _ _ KD). cbn [rbind].
    eexists. exists ar. split; [reflexivity|]. split; [|split; [|split]].
    - intros x Hx. rewrite set_other by lia. rewrite O5 by (rewrite OWC; unfold L0; lia). rewrite O4.
      + unfold h3. rewrite app_old by lia. unfold h2. rewrite app_old by lia. apply O1. exact Hx.
      + lia.
      + intros Q. apply in_map_iff in Q. destruct Q as (c' & EQ & IC).
        assert (Q : In x (owned cs1)). { rewrite <- EQ. unfold owned. apply in_flat_map. exists c'. split; [exact IC|left; reflexivity]. }
        apply OW1 in Q. unfold L0 in Q. lia.
    - intros x Hx. rewrite length_set_nth, LN5 in Hx. destruct (Nat.eq_dec x (length h1)) as [-> |NX].
      + apply set_same. lia.
      + unfold dead. rewrite set_other by congruence. apply D5. rewrite OWC. unfold L0. lia.
    - rewrite NA. exact NMC.
    - intros h0. destruct (LD h0) as (h' & p' & cs' & Q1 & Q2 & Q3 & Q4 & Q5 & Q6).
      exists h', p', cs', (reloaded m). split; [exact Q1|]. split; [exact Q2|]. split; [exact Q6|]. split; [exact Q5|].
      split; [rewrite Q4, ARC, map_app; reflexivity|]. split.
      + exists n. unfold reloaded, m, builder, stored_dims. cbn [np_shape np_ndim np_elem np_type np_data np_fortran firstn app length].
        repeat split; try reflexivity.
        pose proof (longest_ge names) as LG. fold n in LG. rewrite Forall_forall in *. intros s Hs. split; [apply LG; exact Hs|apply FN; exact Hs].
      + unfold reloaded, m, builder. cbn [np_data]. rewrite LR. nia.
  Qed.
End Save.
