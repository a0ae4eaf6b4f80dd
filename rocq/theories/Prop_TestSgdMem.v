(** Prop_TestSgdMem.v -- C110: the memory of the SGD example *)
From Coq Require Import ZArith Bool String Ascii List Lia.
From Verif Require Import Base BaseProofs Activation Logger Npy NpyList SpecList ListProofs Prop_List Registry SpecRegistry Create SpecCreate CreateProofs
  Prop_Create NetFile Loss Names Evaluate OptCreate SpecOptCreate Prop_OptCreate Trainer Prop_Trainer2 Example03 Prop_Example03 Example02Mem Prop_Example02Mem TestSgd TestSgdMem.
Import ListNotations.
Local Open Scope nat_scope.

(** the epochs after the first take no memory *)
Lemma epochs_again mem k h o n q b : ro_pivot o = Some q -> holds h q b -> epochs_memory mem k h o n n = Ok (h, o, n).
Proof.
  intros P H. induction k as [|k IH]; [reflexivity|]. cbn [epochs_memory]. unfold prepare_pivot. rewrite Z.eqb_refl. cbn [rbind]. rewrite P, (h_get_holds _ _ _ H). cbn [rbind]. exact IH.
Qed.

Section Memory.
  Variable mem : nat -> Z -> bool.
  Variable lib_opens : bytes -> bool.
  Variable dlsym : bytes -> bytes -> option (option nat).
  Variable alloc : Z -> bool.
  Variable utf8 : bytes -> bool.
  Variable floats : heap -> cnet -> heap.
  Hypothesis HM : forall k s, mem k s = true.
  Hypothesis HA : forall s, alloc s = true.
  Hypothesis HU : forall s, Forall (fun c => nat_of_ascii c < 128) s -> utf8 s = true.
  Hypothesis HF : writes_floats floats.

  (** the program frees the list, the network and the structure of the optimizer, and leaves exactly the velocity and the pivot array *)
  Theorem test_sgd_leaves : forall h p c1 c2 c3 c4 cs n m nt,
    is_list h p (c1 :: c2 :: c3 :: c4 :: cs) ->
    rows_of (c_m c1) n m -> rows_of (c_m c3) nt m -> np_fortran (c_m c2) = false -> np_fortran (c_m c4) = false ->
    (1 <= m)%Z -> ((m + 1) * 61 < 2147483648)%Z -> (1 <= n < 2147483648)%Z -> (0 <= nt < 2147483648)%Z ->
    exists h' o v q, test_sgd_memory mem lib_opens dlsym alloc utf8 floats h [] p = Ok (h', o)
      /\ (forall b, In b (blocks_of (c1 :: c2 :: c3 :: c4 :: cs)) -> dead h' b)
      /\ (forall b, b < length h -> ~ In b (blocks_of (c1 :: c2 :: c3 :: c4 :: cs)) -> nth_error h' b = nth_error h b)
      /\ ro_arrays o = [v] /\ ro_pivot o = Some q /\ v <> q /\ length h <= v /\ length h <= q
      /\ (forall b, length h <= b -> (live h' b <-> b = v \/ b = q)).
  Proof.
    intros h p c1 c2 c3 c4 cs n m nt (CH & ND) (F1 & r1 & R1) (F3 & r3 & R3) F2 F4 M1 M2 N NT. set (all := c1 :: c2 :: c3 :: c4 :: cs) in *.
    assert (LT : forall b, In b (blocks_of all) -> b < length h) by (exact (chain_lt _ _ _ CH)).
    assert (FA : arrays_of_list h p = Ok (c_m c1, c_m c3)) by (apply (arrays_ok h p c1 c2 c3 c4 cs); assumption).
    unfold test_sgd_memory. rewrite FA. cbn [rbind fst snd]. unfold shape_at. rewrite R1, R3. cbn [nth_error rbind]. unfold as_int.
    replace (m <? 2147483648)%Z with true by (symmetry; apply Z.ltb_lt; lia). replace (n <? 2147483648)%Z with true by (symmetry; apply Z.ltb_lt; lia).
    replace (nt <? 2147483648)%Z with true by (symmetry; apply Z.ltb_lt; lia). cbn [rbind].
    assert (FIT : sizes_fit [m; 61; 28; 1]%Z) by (split; repeat constructor; cbn; lia).
    destruct (create_network mem lib_opens dlsym h [] 3 [m; 61; 28; 1]%Z
      [Some (list_ascii_of_string "relu"); Some (list_ascii_of_string "relu"); Some (list_ascii_of_string "sigmoid")] ltac:(lia) eq_refl FIT (le_n 3))
      as (h5 & st5 & nn & C & IN & _ & _ & B5 & S5 & _).
    { apply Forall_forall. intros o Ho s ->. cbn [In] in Ho. apply no_at_short.
      destruct Ho as [Q|[Q|[Q|[]]]]; injection Q as <-; cbn; intros Q; repeat (destruct Q as [Q|Q]; [discriminate|]); exact Q. }
    { exact HM. }
    match type of C with ?l = _ => match goal with |- context [create mem lib_opens dlsym h [] ?k ?a ?b] => change (create mem lib_opens dlsym h [] k a b) with l end end.
    destruct (three_funcs mem lib_opens dlsym h [] _ _ h5 st5 nn C) as (ES & FU).
    { pose proof (proj1 IN) as F. apply Forall2_len in F. rewrite <- F. reflexivity. }
    rewrite C. rewrite ES. cbn [rbind]. change (get_loss_func "binary_crossentropy") with (Some BCE). cbv iota.
    assert (G5 : length h <= length h5) by (pose proof (proj1 (B5 (cn_self nn)) (or_introl eq_refl)); lia).
    assert (NO : net_of h5 [m; 61; 28; 1]%Z nn (parameters (steps [m; 61; 28; 1]%Z))).
    { split; [exact IN|]. split; [repeat constructor; cbn; lia|]. split; [reflexivity|]. cbn. lia. }
    match goal with |- context [optimizer_new mem K_SGD h5 statics0 _ _ ?c] =>
      destruct (optimizer_new_ok mem K_SGD h5 statics0 h5 _ nn _ BCE c NO ltac:(cbn; lia) HM) as (h6 & st6 & o & EO & (I1 & I2 & I3 & I4 & I5) & KO & _ & B6 & S6) end.
    rewrite EO. cbn [rbind]. rewrite KO in I1. cbn in I1.
    assert (G6 : length h5 <= length h6) by (pose proof (proj1 (B6 (ro_self o)) (or_introl eq_refl)); lia).
    change (epochs_memory mem 10) with (fun h o old n => rbind (prepare_pivot mem h o old n) (fun r => let '(h, o, old) := r in
      match ro_pivot o with None => Fault BadPointer | Some p => rbind (h_get h p) (fun _ => epochs_memory mem 9 h o old n) end)). cbv beta. unfold prepare_pivot at 1. destruct (Z.eqb_spec n 0); [lia|]. rewrite malloc_ok by apply HM. rewrite I4. cbn [rbind ro_pivot].
    set (h7 := h6 ++ [new_mem (n * 4)]). assert (L7 : length h7 = 1 + length h6) by (unfold h7; rewrite app_length; cbn; lia).
    assert (S7 : forall b, b < length h6 -> nth_error h7 b = nth_error h6 b) by (intros b Hb; apply nth_error_app1; exact Hb).
    assert (V7 : live h7 (length h6)) by apply live_app. clearbody h7.
    destruct V7 as (b7 & V7). rewrite (h_get_holds _ _ _ V7). cbn [rbind]. rewrite (fun o E => epochs_again mem 9 h7 o n (length h6) b7 E V7) by reflexivity. cbn [rbind].
    assert (IN7 : is_net h7 [m; 61; 28; 1]%Z nn).
    { apply (is_net_frame h5); [exact IN|]. intros b Hb. apply B5 in Hb. rewrite S7, S6 by lia. reflexivity. }
    destruct (saving_frees alloc utf8 floats h7 nn m _ _ HA HU HF IN7 FU M1 ltac:(lia) ltac:(lia) ltac:(lia)) as (h8 & ar & E8 & S8 & D8 & IN8 & G8). rewrite E8. cbn [rbind fst].
    destruct (free_network h8 _ nn IN8) as (h9 & E9 & D9 & S9). rewrite E9. cbn [rbind].
    destruct (ro_arrays o) as [|v [|? ?]] eqn:AR; try (cbn in I1; lia).
    assert (OB : forall b, In b (opt_blocks o) <-> b = ro_self o \/ b = v).
    { intros b. unfold opt_blocks. rewrite AR, I4. cbn. intuition congruence. }
    assert (Q1 : length h5 <= ro_self o < length h6) by (apply B6, OB; left; reflexivity). assert (Q2 : length h5 <= v < length h6) by (apply B6, OB; right; reflexivity).
    assert (NV : ro_self o <> v). { unfold opt_blocks in I5. rewrite AR in I5. inversion I5 as [|? ? NI _]. intros Q. apply NI. left. symmetry. exact Q. }
    assert (K9 : forall x, x < length h7 -> ~ In x (net_blocks nn) -> nth_error h9 x = nth_error h7 x) by (intros x Hx NX; rewrite S9 by exact NX; apply S8; [lia|exact NX]).
    cbn [ro_self].
    assert (VS : live h9 (ro_self o)).
    { apply (live_same h6); [|exact I3]. rewrite K9 by (try (rewrite B5); lia). apply S7. lia. }
    rewrite (live_free _ _ VS). cbn [rbind]. set (h9' := set_nth h9 (ro_self o) None).
    assert (OLD : forall b, b < length h -> nth_error h9' b = nth_error h b).
    { intros b Hb. unfold h9'. rewrite set_other by lia. rewrite S9 by (rewrite B5; lia). rewrite S8 by (try rewrite B5; lia). rewrite S7, S6, S5 by lia. reflexivity. }
    assert (LI : is_list h9' p all) by (split; [apply (chain_frame h); [exact CH|intros b Hb; apply OLD, LT, Hb]|exact ND]).
    pose proof (is_list_len _ _ _ LI) as LEN. destruct (free_chain all h9' p (S (length h9')) LI ltac:(lia)) as (h10 & E10 & _ & D10 & S10). rewrite E10. cbn [rbind].
    exists h10. eexists. exists v, (length h6). split; [reflexivity|]. split; [exact D10|]. split; [intros b Hb NI; rewrite S10 by exact NI; apply OLD; exact Hb|].
    cbn [ro_arrays ro_pivot ro_self]. split; [reflexivity|]. split; [reflexivity|].
    assert (LL : forall b, length h <= b -> ~ In b (blocks_of all)) by (intros b Hb Q; apply LT in Q; lia).
    split; [lia|]. split; [lia|]. split; [lia|]. intros b Hb. split.
    - intros (bb & LV). unfold holds in LV. rewrite S10 in LV by (apply LL; exact Hb). unfold h9' in LV.
      destruct (Nat.eq_dec b (ro_self o)) as [-> |NE]; [rewrite set_same in LV by (apply live_lt; exact VS); discriminate|]. rewrite set_other in LV by congruence.
      destruct (in_dec Nat.eq_dec b (net_blocks nn)) as [Q3|Q3]; [apply D9 in Q3; unfold dead in Q3; congruence|]. rewrite S9 in LV by exact Q3. rewrite B5 in Q3.
      assert (b < length h8) by (apply nth_error_Some; congruence).
      destruct (Nat.lt_ge_cases b (length h7)) as [Q4|Q4]; [|assert (Q5 : dead h8 b) by (apply D8; lia); unfold dead in Q5; congruence].
      destruct (Nat.eq_dec b (length h6)) as [-> |Q5]; [right; reflexivity|]. assert (Q6 : In b (opt_blocks o)) by (apply B6; lia). apply OB in Q6. tauto.
    - intros Q. assert (Q3 : ~ In b (net_blocks nn)) by (rewrite B5; lia). apply (live_same h7).
      { rewrite S10 by (apply LL; exact Hb). unfold h9'. rewrite set_other by lia. apply K9; [lia|exact Q3]. }
      destruct Q as [-> | -> ].
      + apply (live_same h6); [apply S7; lia|]. rewrite Forall_forall in I2. destruct (I2 v (or_introl eq_refl)) as (bs & Q & _). exists (BMem bs). exact Q.
      + exists b7. exact V7.
  Qed.
End Memory.
Print Assumptions test_sgd_leaves.

(** so the program does not free all its memory *)
Theorem test_sgd_frees_refuted : exists h p, forall lib_opens dlsym floats, writes_floats floats ->
  exists h' o, test_sgd_memory (fun _ _ => true) lib_opens dlsym (fun _ => true) (fun _ => true) floats h [] p = Ok (h', o)
  /\ exists b, length h <= b /\ live h' b.
Proof.
  exists ex_list_heap, (Some 0). intros lo ds fl HF.
  destruct (test_sgd_leaves (fun _ _ => true) lo ds (fun _ => true) (fun _ => true) fl (fun _ _ => eq_refl) (fun _ => eq_refl) (fun _ _ => eq_refl) HF) with (h := ex_list_heap) (p := Some 0)
    (c1 := mk_cell 0 1 2 3 (ex_arr 3 2) []) (c2 := mk_cell 4 5 6 7 (ex_arr 3 1) []) (c3 := mk_cell 8 9 10 11 (ex_arr 1 2) []) (c4 := mk_cell 12 13 14 15 (ex_arr 1 1) [])
    (cs := @nil cell) (n := 3%Z) (m := 2%Z) (nt := 1%Z) as (h' & o & v & q & E & _ & _ & _ & _ & _ & V & _ & L).
  - exact ex_is_list.
  - exact (proj1 ex_rows).
  - exact (proj2 ex_rows).
  - reflexivity.
  - reflexivity.
  - lia.
  - lia.
  - lia.
  - lia.
  - exists h', o. split; [exact E|]. exists v. split; [exact V|]. apply L; [exact V|]. left. reflexivity.
Qed.
Print Assumptions test_sgd_frees_refuted.
(** a program that finds no file stops with a NULL pointer *)
Example test_sgd_no_file mem lo ds al ut fl h st : test_sgd_memory mem lo ds al ut fl h st None = Fault BadPointer.
Proof. reflexivity. Qed.
