(** Prop_Example01Mem.v -- C111: the memory of the first example program *)
From Coq Require Import ZArith Bool String Ascii List Lia.
From Verif Require Import Base BaseProofs Activation Logger Npy SpecNpy NpyList SpecList ListProofs Prop_List Registry SpecRegistry Create SpecCreate CreateProofs
  Prop_Create NetFile OptCreate SpecOptCreate Prop_OptCreate Trainer Prop_Example03 Example02Mem Prop_Example02Mem Example01Mem.
Import ListNotations.
Local Open Scope nat_scope.

(** writing floats keeps the network *)
Lemma floats_net floats h sizes nn : writes_floats floats -> is_net h sizes nn -> is_net (floats h nn) sizes nn.
Proof.
  intros HF IN. destruct (HF h _ nn IN) as (_ & S & W). destruct IN as (F & L1 & L2 & ND).
  assert (OUT : ~ In (cn_self nn) (flat_map layer_blocks (cn_layers nn)) /\ ~ In (cn_arr nn) (flat_map layer_blocks (cn_layers nn))).
  { unfold net_blocks in ND. inversion ND as [|? ? Q1 ND1]; subst. inversion ND1 as [|? ? Q2 ND2]; subst. split; intros Q; [apply Q1; right; exact Q|exact (Q2 Q)]. }
  split; [|split; [apply (live_same h); [apply S, OUT|exact L1]|split; [apply (live_same h); [apply S, OUT|exact L2]|exact ND]]].
  assert (G : forall p n, has_bytes h p n -> (forall x, p = FPtr x -> In x (flat_map layer_blocks (cn_layers nn))) -> has_bytes (floats h nn) p n).
  { intros p n (x & l & -> & H & N) I. destruct (W x l (I x eq_refl) H) as (s & Ls & Hs). exists x, (map Some s). split; [reflexivity|]. split; [exact Hs|]. rewrite map_length, Ls. exact N. }
  clear S W ND L1 L2 OUT. revert F G. generalize (floats h nn). intros h'. generalize (steps sizes). generalize (cn_layers nn).
  induction l as [|y ls IH]; intros ss F G; inversion F as [|s ? ss' ? (H1 & H2 & H3 & H4) F']; subst; constructor.
  - split; [exact H1|]. split; [exact H2|].
    split; apply G; try assumption; intros x Hx; cbn [flat_map]; apply in_or_app; left; unfold layer_blocks; rewrite Hx; apply in_or_app; [left|right]; left; reflexivity.
  - apply IH; [exact F'|]. intros p n H I. apply G; [exact H|]. intros x Hx. cbn [flat_map]. apply in_or_app. right. apply I. exact Hx.
Qed.

Section Memory.
  Variable mem : nat -> Z -> bool.
  Variable lib_opens : bytes -> bool.
  Variable dlsym : bytes -> bytes -> option (option nat).
  Variable floats : heap -> cnet -> heap.
  Hypothesis HM : forall k s, mem k s = true.
  Hypothesis HF : writes_floats floats.

  (** the program frees the list and the network; nothing that it took is left, and no other block is touched *)
  Theorem example_01_frees : forall h st p c1 c2 c3 c4 cs n m nt,
    is_list h p (c1 :: c2 :: c3 :: c4 :: cs) ->
    rows_of (c_m c1) n m -> rows_of (c_m c3) nt m -> np_fortran (c_m c2) = false -> np_fortran (c_m c4) = false ->
    (1 <= m)%Z -> ((m + 1) * 64 + 65 * 32 + 33 < 2147483648)%Z -> (0 <= n < 2147483648)%Z -> (0 <= nt < 2147483648)%Z ->
    exists h', main_01_memory mem lib_opens dlsym floats h st p = Ok h'
      /\ (forall b, In b (blocks_of (c1 :: c2 :: c3 :: c4 :: cs)) -> dead h' b)
      /\ (forall b, b < length h -> ~ In b (blocks_of (c1 :: c2 :: c3 :: c4 :: cs)) -> nth_error h' b = nth_error h b)
      /\ (forall b, length h <= b -> ~ live h' b).
  Proof.
    intros h st p c1 c2 c3 c4 cs n m nt (CH & ND) (F1 & r1 & R1) (F3 & r3 & R3) F2 F4 M1 M2 N NT. set (all := c1 :: c2 :: c3 :: c4 :: cs) in *.
    assert (LT : forall b, In b (blocks_of all) -> b < length h) by (exact (chain_lt _ _ _ CH)).
    unfold main_01_memory. rewrite (four_arrays_ok h p c1 c2 c3 c4 cs CH F1 F2 F3 F4). cbn [rbind fst snd]. unfold shape_at. rewrite R1, R3. cbn [nth_error rbind].
    assert (AI : forall z, (0 <= z < 2147483648)%Z -> as_int z = Ok z) by (intros z Hz; unfold as_int; replace (z <? 2147483648)%Z with true by (symmetry; apply Z.ltb_lt; lia); reflexivity).
    rewrite (AI m), (AI n), (AI nt) by lia. cbn [rbind].
    assert (FIT : sizes_fit [m; 64; 32; 1]%Z) by (split; repeat constructor; cbn; lia).
    destruct (create_network mem lib_opens dlsym h st 3 [m; 64; 32; 1]%Z
      [Some (list_ascii_of_string "relu"); Some (list_ascii_of_string "relu"); Some (list_ascii_of_string "sigmoid")] ltac:(lia) eq_refl FIT (le_n 3))
      as (h5 & st5 & nn & C & IN & _ & _ & B5 & S5 & _).
    { apply Forall_forall. intros o Ho s ->. cbn [In] in Ho. apply no_at_short.
      destruct Ho as [Q|[Q|[Q|[]]]]; injection Q as <-; cbn; intros Q; repeat (destruct Q as [Q|Q]; [discriminate|]); exact Q. }
    { exact HM. }
    match type of C with ?l = _ => match goal with |- context [create mem lib_opens dlsym h st ?k ?a ?b] => change (create mem lib_opens dlsym h st k a b) with l end end.
    rewrite C. cbn [rbind].
    assert (NO : net_of h5 [m; 64; 32; 1]%Z nn (parameters (steps [m; 64; 32; 1]%Z))).
    { split; [exact IN|]. split; [repeat constructor; cbn; lia|]. split; [reflexivity|]. cbn. lia. }
    destruct (net_params _ _ _ _ NO) as (TP & PB). rewrite TP. cbn [rbind]. rewrite AI by (cbn; lia). cbn [rbind].
    destruct (HF h5 _ nn IN) as (LF & SF & _).
    assert (NB : forall b, ~ In b (net_blocks nn) -> nth_error (floats h5 nn) b = nth_error h5 b) by (intros b Hb; apply SF; intros Q; apply Hb; right; right; exact Q).
    destruct (free_network (floats h5 nn) _ nn (floats_net floats h5 _ nn HF IN)) as (h9 & E9 & D9 & S9). rewrite E9. cbn [rbind].
    assert (OLD : forall b, b < length h -> nth_error h9 b = nth_error h b).
    { intros b Hb. assert (Q : ~ In b (net_blocks nn)) by (rewrite B5; lia). rewrite S9, NB by exact Q. apply S5. exact Hb. }
    assert (LI : is_list h9 p all) by (split; [apply (chain_frame h); [exact CH|intros b Hb; apply OLD, LT, Hb]|exact ND]).
    pose proof (is_list_len _ _ _ LI) as LEN. destruct (free_chain all h9 p (S (length h9)) LI ltac:(lia)) as (h10 & E10 & _ & D10 & S10).
    exists h10. split; [exact E10|]. split; [exact D10|]. split; [intros b Hb NI; rewrite S10 by exact NI; apply OLD; exact Hb|].
    intros b Hb (bb & LV). unfold holds in LV. rewrite S10 in LV by (intros Q; apply LT in Q; lia).
    destruct (in_dec Nat.eq_dec b (net_blocks nn)) as [Q|Q]; [apply D9 in Q; unfold dead in Q; congruence|]. rewrite S9 in LV by exact Q.
    assert (b < length (floats h5 nn)) by (apply nth_error_Some; congruence). rewrite B5 in Q. lia.
  Qed.

  (** from line 13 on, for every archive that npy_array_list_save_compressed has written: afterwards all old blocks are as before, and no new one is left *)
  Theorem example_01_archive_frees : forall alloc utf8 h0 p0 c1 c2 c3 c4 cs comp n m nt,
    is_list h0 p0 (c1 :: c2 :: c3 :: c4 :: cs) -> Forall (fun c => storable (c_m c)) (c1 :: c2 :: c3 :: c4 :: cs) ->
    Forall (fun c => plain (c_str c) /\ length (c_str c) <= 80 /\ utf8 (c_str c) = true) (c1 :: c2 :: c3 :: c4 :: cs) ->
    NoDup (names_of (c1 :: c2 :: c3 :: c4 :: cs)) -> enough alloc (c1 :: c2 :: c3 :: c4 :: cs) ->
    rows_of (c_m c1) n m -> rows_of (c_m c3) nt m -> 2 <= np_ndim (c_m c1) -> 2 <= np_ndim (c_m c3) ->
    np_fortran (c_m c2) = false -> np_fortran (c_m c4) = false -> ((m + 1) * 64 + 65 * 32 + 33 < 2147483648)%Z ->
    exists archive, list_save_compressed alloc utf8 h0 p0 comp = Ok (h0, Some archive, length (c1 :: c2 :: c3 :: c4 :: cs))
      /\ forall h st, exists h', main_01_whole mem lib_opens dlsym floats alloc h st archive = Ok h'
           /\ (forall b, b < length h -> nth_error h' b = nth_error h b) /\ (forall b, length h <= b -> ~ live h' b).
  Proof.
    intros alloc utf8 h0 p0 c1 c2 c3 c4 cs comp n m nt LI ST NM ND EN R1 R3 D1 D3 F2 F4 M2.
    destruct (npz_round_trip_partial alloc utf8 h0 p0 _ comp LI ltac:(discriminate) ST NM ND EN) as (ar & E & _ & _ & LD).
    exists ar. split; [exact E|]. intros h st. destruct (LD h) as (h1 & p1 & cs' & L1 & L2 & _ & SA & OLD & NEW).
    assert (SP : exists d1 d2 d3 d4 ds, cs' = d1 :: d2 :: d3 :: d4 :: ds /\ same_array (c_m c1) (c_m d1) /\ same_array (c_m c2) (c_m d2)
      /\ same_array (c_m c3) (c_m d3) /\ same_array (c_m c4) (c_m d4)).
    { clear - SA. unfold arrays_of in SA. cbn [map] in SA.
      destruct cs' as [|d1 cs']; inversion SA as [|? ? ? ? Q1 SA1]; subst. destruct cs' as [|d2 cs']; inversion SA1 as [|? ? ? ? Q2 SA2]; subst.
      destruct cs' as [|d3 cs']; inversion SA2 as [|? ? ? ? Q3 SA3]; subst. destruct cs' as [|d4 ds]; inversion SA3 as [|? ? ? ? Q4 SA4]; subst.
      exists d1, d2, d3, d4, ds. split; [reflexivity|]. split; [exact Q1|]. split; [exact Q2|]. split; [exact Q3|exact Q4]. }
    destruct SP as (d1 & d2 & d3 & d4 & ds & -> & A1 & A2 & A3 & A4).
    assert (RO : forall a b x y, same_array a b -> rows_of a x y -> 2 <= np_ndim a -> rows_of b x y).
    { intros a b x y (_ & Q1 & Q2 & _ & _ & Q3 & _) (Fa & r & Ra) Da. split; [congruence|]. unfold stored_dims in Q2. rewrite Q1, Ra in Q2.
      destruct (np_ndim a) as [|[|k]]; try lia. cbn [firstn] in Q2.
      destruct (np_shape b) as [|z1 [|z2 r2]]; cbn [firstn] in Q2; try discriminate. injection Q2 as -> -> _. exists r2. reflexivity. }
    assert (FO : forall a b, same_array a b -> np_fortran a = false -> np_fortran b = false) by (intros a b (_ & _ & _ & _ & _ & Q & _) Fa; congruence).
    assert (IB : forall a x y, storable a -> rows_of a x y -> 2 <= np_ndim a -> (0 < x < 2147483648)%Z /\ (0 < y < 2147483648)%Z).
    { intros a x y (_ & _ & Q & _) (_ & r & Ra) Da. unfold stored_dims in Q. rewrite Ra in Q. destruct (np_ndim a) as [|[|k]]; try lia. cbn [firstn] in Q.
      inversion Q as [|? ? Q1 Q2]; subst. inversion Q2; subst. split; assumption. }
    assert (S1 : storable (c_m c1)) by (inversion ST; assumption).
    assert (S3 : storable (c_m c3)) by (rewrite Forall_forall in ST; apply ST; right; right; left; reflexivity).
    pose proof (IB _ _ _ S1 R1 D1) as B1. pose proof (IB _ _ _ S3 R3 D3) as B3.
    destruct (example_01_frees h1 st p1 d1 d2 d3 d4 ds n m nt L2 (RO _ _ _ _ A1 R1 D1) (RO _ _ _ _ A3 R3 D3) (FO _ _ A2 F2) (FO _ _ A4 F4)
      ltac:(lia) M2 ltac:(lia) ltac:(lia)) as (h' & E' & DD & SS & NN).
    exists h'. unfold main_01_whole. rewrite L1. cbn [rbind fst snd]. split; [exact E'|].
    split.
    - intros b Hb. rewrite <- OLD by exact Hb. apply SS; [|rewrite NEW; lia].
      destruct (Nat.lt_ge_cases b (length h1)) as [Q|Q]; [exact Q|]. exfalso. apply nth_error_None in Q. rewrite OLD in Q by exact Hb. apply nth_error_None in Q. lia.
    - intros b Hb. destruct (Nat.lt_ge_cases b (length h1)) as [Q|Q]; [|apply NN; exact Q].
      intros (bb & LV). unfold holds in LV. assert (X : dead h' b) by (apply DD, NEW; lia). unfold dead in X. congruence.
  Qed.
End Memory.
Print Assumptions example_01_frees.
Print Assumptions example_01_archive_frees.
(** all premises are met by the list of Prop_Example02Mem.v *)
Example example_01_case : exists h', main_01_memory (fun _ _ => true) (fun _ => false) (fun _ _ => None) all_zero ex_list_heap [] (Some 0) = Ok h'
  /\ (forall b, In b (blocks_of ex_cells) -> dead h' b) /\ (forall b, length ex_list_heap <= b -> ~ live h' b).
Proof.
  destruct (example_01_frees (fun _ _ => true) (fun _ => false) (fun _ _ => None) all_zero (fun _ _ => eq_refl) all_zero_writes ex_list_heap [] (Some 0) _ _ _ _ [] 3 2 1
    ex_is_list (proj1 ex_rows) (proj2 ex_rows) eq_refl eq_refl ltac:(lia) ltac:(lia) ltac:(lia) ltac:(lia)) as (h' & E & D & _ & L).
  exists h'. split; [exact E|split; [exact D|exact L]].
Qed.
Example example_01_run : (match main_01_memory (fun _ _ => true) (fun _ => false) (fun _ _ => None) all_zero ex_list_heap [] (Some 0) with
  | Ok h => Some (length h, existsb (fun b => match b with Some _ => true | None => false end) h) | Fault _ => None end) = Some (24, false).
Proof. vm_compute. reflexivity. Qed.
(** four arrays that meet the premises of example_01_archive_frees: 3 and 1 samples of 2 features *)
Definition st_arr (n m : nat) : npy :=
  mk_npy (repeat "000"%char (n * m * 4)) [Z.of_nat n; Z.of_nat m; 0; 0; 0; 0; 0; 0]%Z 2 "<" "f" 4 false false.
Definition st_cells : list cell := [mk_cell 0 1 2 3 (st_arr 3 2) (list_ascii_of_string "a"); mk_cell 4 5 6 7 (st_arr 3 1) (list_ascii_of_string "b");
  mk_cell 8 9 10 11 (st_arr 1 2) (list_ascii_of_string "c"); mk_cell 12 13 14 15 (st_arr 1 1) (list_ascii_of_string "d")].
Definition st_heap : heap :=
  [Some (BNode (Some 1) (Some 3) (Some 4)); Some (BArr (st_arr 3 2) 2); Some BData; Some (BName (list_ascii_of_string "a"));
   Some (BNode (Some 5) (Some 7) (Some 8)); Some (BArr (st_arr 3 1) 6); Some BData; Some (BName (list_ascii_of_string "b"));
   Some (BNode (Some 9) (Some 11) (Some 12)); Some (BArr (st_arr 1 2) 10); Some BData; Some (BName (list_ascii_of_string "c"));
   Some (BNode (Some 13) (Some 15) None); Some (BArr (st_arr 1 1) 14); Some BData; Some (BName (list_ascii_of_string "d"))].
Example st_is_list : is_list st_heap (Some 0) st_cells.
Proof.
  split; [|cbn; repeat constructor; cbn; lia].
  apply (chain_cons _ (mk_cell 0 1 2 3 (st_arr 3 2) (list_ascii_of_string "a")) (Some 4)); try reflexivity; [eexists; reflexivity|].
  apply (chain_cons _ (mk_cell 4 5 6 7 (st_arr 3 1) (list_ascii_of_string "b")) (Some 8)); try reflexivity; [eexists; reflexivity|].
  apply (chain_cons _ (mk_cell 8 9 10 11 (st_arr 1 2) (list_ascii_of_string "c")) (Some 12)); try reflexivity; [eexists; reflexivity|].
  apply (chain_cons _ (mk_cell 12 13 14 15 (st_arr 1 1) (list_ascii_of_string "d")) None); try reflexivity; [eexists; reflexivity|]. constructor.
Qed.
Example example_01_archive_case : exists archive, list_save_compressed (fun _ => true) (fun _ => true) st_heap (Some 0) 0%Z = Ok (st_heap, Some archive, 4)
  /\ forall h st, exists h', main_01_whole (fun _ _ => true) (fun _ => false) (fun _ _ => None) all_zero (fun _ => true) h st archive = Ok h'
       /\ (forall b, b < length h -> nth_error h' b = nth_error h b) /\ (forall b, length h <= b -> ~ live h' b).
Proof.
  apply (example_01_archive_frees (fun _ _ => true) (fun _ => false) (fun _ _ => None) all_zero (fun _ _ => eq_refl) all_zero_writes (fun _ => true) (fun _ => true)
    st_heap (Some 0) _ _ _ _ [] 0%Z 3 2 1 st_is_list).
  - repeat constructor; vm_compute; try discriminate; try reflexivity; try lia.
  - repeat constructor; cbn; try lia; intros Q; repeat (destruct Q as [Q|Q]; [discriminate|]); destruct Q.
  - repeat constructor; cbn; intros Q; repeat (destruct Q as [Q|Q]; [discriminate|]); destruct Q.
  - split; [reflexivity|]. split; [reflexivity|]. repeat constructor.
  - split; [reflexivity|eexists; reflexivity].
  - split; [reflexivity|eexists; reflexivity].
  - cbn. lia.
  - cbn. lia.
  - reflexivity.
  - reflexivity.
  - lia.
Qed.
