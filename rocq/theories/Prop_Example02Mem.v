(** Prop_Example02Mem.v -- C108: the memory of the second example program *)
From Coq Require Import ZArith Bool String Ascii List Lia.
From Verif Require Import Base BaseProofs Activation Logger Npy NpyList SpecList ListProofs Prop_List Registry SpecRegistry Create SpecCreate CreateProofs
  Prop_Create NetFile SpecNetFile Prop_NetFile Loss Names Evaluate OptCreate SpecOptCreate Prop_OptCreate Trainer Prop_Trainer2 Example03 Prop_Example03 Example02Mem.
Import ListNotations.
Local Open Scope nat_scope.

(** an array of features: in C order, n rows of m *)
Definition rows_of (a : npy) (n m : Z) : Prop := np_fortran a = false /\ exists rest, np_shape a = n :: m :: rest.

Lemma arrays_ok h p c1 c2 c3 c4 cs : chain h p (c1 :: c2 :: c3 :: c4 :: cs) ->
  np_fortran (c_m c1) = false -> np_fortran (c_m c2) = false -> np_fortran (c_m c3) = false -> np_fortran (c_m c4) = false ->
  arrays_of_list h p = Ok (c_m c1, c_m c3).
Proof.
  intros CH F1 F2 F3 F4. inversion CH as [|? x1 ? A1 A2 _ _ CH1]; subst. inversion CH1 as [|? x2 ? B1 B2 _ _ CH2]; subst.
  inversion CH2 as [|? x3 ? C1 C2 _ _ CH3]; subst. inversion CH3 as [|? x4 ? D1 D2 _ _ CH4]; subst. unfold arrays_of_list, next_array.
  rewrite (get_node_holds _ _ _ _ _ A1). cbn [rbind]. rewrite (get_arr_holds _ _ _ _ A2). cbn [rbind fst snd].
  rewrite (get_node_holds _ _ _ _ _ B1). cbn [rbind]. rewrite (get_arr_holds _ _ _ _ B2). cbn [rbind fst snd].
  rewrite (get_node_holds _ _ _ _ _ C1). cbn [rbind]. rewrite (get_arr_holds _ _ _ _ C2). cbn [rbind fst snd].
  rewrite (get_node_holds _ _ _ _ _ D1). cbn [rbind]. rewrite (get_arr_holds _ _ _ _ D2). cbn [rbind fst snd].
  rewrite F1, F2, F3, F4. reflexivity.
Qed.
Lemma four_arrays_ok h p c1 c2 c3 c4 cs : chain h p (c1 :: c2 :: c3 :: c4 :: cs) ->
  np_fortran (c_m c1) = false -> np_fortran (c_m c2) = false -> np_fortran (c_m c3) = false -> np_fortran (c_m c4) = false ->
  four_arrays h p = Ok (c_m c1, c_m c3).
Proof. intros CH F1 F2 F3 F4. unfold four_arrays. rewrite (arrays_ok _ _ _ _ _ _ _ CH F1 F2 F3 F4). inversion CH; subst. reflexivity. Qed.

(** what is written into a network: initialized bytes in the blocks of weights and biases, nothing else *)
Definition writes_floats (floats : heap -> cnet -> heap) : Prop := forall h sizes nn, is_net h sizes nn ->
  length (floats h nn) = length h
  /\ (forall x, ~ In x (flat_map layer_blocks (cn_layers nn)) -> nth_error (floats h nn) x = nth_error h x)
  /\ (forall x l, In x (flat_map layer_blocks (cn_layers nn)) -> holds h x (BMem l) ->
       exists s, length s = length l /\ holds (floats h nn) x (BMem (map Some s))).

Lemma rbind_ok {A B} (x : res A) (f : A -> res B) y : rbind x f = Ok y -> exists a, x = Ok a /\ f a = Ok y.
Proof. destruct x as [a|e]; cbn; [eauto|discriminate]. Qed.
Lemma Forall2_len {A B} (P : A -> B -> Prop) l l' : Forall2 P l l' -> length l = length l'.
Proof. induction 1; cbn; congruence. Qed.
(** the functions of a created network *)
Lemma create_funcs mem lo ds h st k sizes names h' st' nn : create mem lo ds h st k sizes names = Ok (h', st', Some nn) ->
  exists ls, set_funcs lo ds st ls names 0 = Ok (st', cn_layers nn).
Proof.
  unfold create. destruct (k <? 1)%Z; [discriminate|]. intros E. apply rbind_ok in E. destruct E as (ok & _ & E). destruct (negb ok); [discriminate|].
  destruct (malloc mem h 24) as [h1 [a|]]; [|discriminate]. destruct (malloc mem h1 _) as [h2 [b|]]; [|apply rbind_ok in E; destruct E as (? & _ & E); discriminate].
  apply rbind_ok in E. destruct E as ([[h3 ls] [|]] & _ & E).
  - apply rbind_ok in E. destruct E as ([st1 ls1] & E1 & E). cbn [fst snd] in E. exists ls. rewrite E1.
    assert (X : forall (a a' : heap) (b b' : records) (c c' : cnet), @Ok (heap * records * option cnet) (a, b, Some c) = Ok (a', b', Some c') -> b = b' /\ c = c') by (intros; split; congruence).
    apply X in E. destruct E as (<- & <-). reflexivity.
  - apply rbind_ok in E. destruct E as (? & _ & E). apply rbind_ok in E. destruct E as (? & _ & E). discriminate.
Qed.
Lemma set_funcs_len lo ds names ls : forall st i st' ls', set_funcs lo ds st ls names i = Ok (st', ls') -> length ls' = length ls.
Proof.
  induction ls as [|l ls IH]; intros st i st' ls' E; cbn [set_funcs] in E; [injection E as _ <-; reflexivity|].
  apply rbind_ok in E. destruct E as (s & _ & E). apply rbind_ok in E. destruct E as (r & _ & E). apply rbind_ok in E. destruct E as (r1 & _ & E).
  apply rbind_ok in E. destruct E as ([st2 ls2] & E2 & E). cbn [fst snd] in E. apply IH in E2. injection E as _ <-. cbn [length]. rewrite E2. reflexivity.
Qed.
Definition three_names : list bytes := [list_ascii_of_string "relu"; list_ascii_of_string "relu"; list_ascii_of_string "sigmoid"].
Lemma three_funcs mem lo ds h st k sizes h' st' nn : create mem lo ds h st k sizes (Some (map Some three_names)) = Ok (h', st', Some nn) -> length (cn_layers nn) = 3 ->
  st' = st /\ map cl_func (cn_layers nn) = [Some (Builtin Relu); Some (Builtin Relu); Some (Builtin Sigmoid)].
Proof.
  intros E L. apply create_funcs in E. destruct E as (ls & E). pose proof (set_funcs_len _ _ _ _ _ _ _ _ E) as L'. rewrite L in L'.
  destruct ls as [|l1 [|l2 [|l3 [|? ?]]]]; try discriminate L'. cbn in E.
  assert (X : forall (a a' : records) (b b' : list clayer), @Ok (records * list clayer) (a, b) = Ok (a', b') -> a = a' /\ b = b') by (intros; split; congruence).
  apply X in E. destruct E as (<- & <-). split; reflexivity.
Qed.

(** saving such a network frees what it takes and changes no other block *)
Lemma saving_frees alloc utf8 floats h nn m a b : (forall s, alloc s = true) ->
  (forall s, Forall (fun c => nat_of_ascii c < 128) s -> utf8 s = true) -> writes_floats floats ->
  is_net h [m; a; b; 1]%Z nn -> map cl_func (cn_layers nn) = [Some (Builtin Relu); Some (Builtin Relu); Some (Builtin Sigmoid)] ->
  (1 <= m)%Z -> (1 <= a < 1000)%Z -> (1 <= b < 1000)%Z -> ((m + 1) * a < 2147483648)%Z ->
  exists h' ar, net_save alloc utf8 (floats h nn) [] nn = Ok (h', Some ar)
    /\ (forall x, x < length h -> ~ In x (net_blocks nn) -> nth_error h' x = nth_error h x) /\ (forall x, length h <= x < length h' -> dead h' x)
    /\ is_net h' [m; a; b; 1]%Z nn /\ length h <= length h'.
Proof.
  intros HA HU HF IN FU M A B MA. destruct (HF h _ nn IN) as (LF & SF & WF). pose proof IN as (F & L1 & L2 & ND). cbn [steps] in F.
  destruct (cn_layers nn) as [|l1 [|l2 [|l3 [|? ?]]]] eqn:CL; try discriminate FU. injection FU as U1 U2 U3.
  inversion F as [|? ? ? ? K1 F1]; subst. inversion F1 as [|? ? ? ? K2 F2]; subst. inversion F2 as [|? ? ? ? K3 F3]; subst. cbn [fst snd] in K1, K2, K3.
  assert (G : forall p n, has_bytes h p n -> (forall x, p = FPtr x -> In x (flat_map layer_blocks [l1; l2; l3])) -> exists s, field_is (floats h nn) p s /\ Z.of_nat (length s) = n).
  { intros p n (x & l & -> & H & N) I. destruct (WF x l (I x eq_refl) H) as (s & Ls & Hs). exists s. split; [exists x; split; [reflexivity|exact Hs]|]. rewrite Ls. exact N. }
  assert (I : forall l, In l [l1; l2; l3] -> forall x, cl_w l = FPtr x \/ cl_b l = FPtr x -> In x (flat_map layer_blocks [l1; l2; l3])).
  { intros l Hl x Hx. apply in_flat_map. exists l. split; [exact Hl|]. unfold layer_blocks. apply in_or_app. destruct Hx as [-> | -> ]; [left|right]; left; reflexivity. }
  destruct K1 as (K11 & K12 & K13 & K14), K2 as (K21 & K22 & K23 & K24), K3 as (K31 & K32 & K33 & K34).
  destruct (G _ _ K13) as (w1 & W1 & N1); [intros x Hx; apply (I l1); cbn; auto|]. destruct (G _ _ K14) as (b1 & B1 & N2); [intros x Hx; apply (I l1); cbn; auto|].
  destruct (G _ _ K23) as (w2 & W2 & N3); [intros x Hx; apply (I l2); cbn; auto|]. destruct (G _ _ K24) as (b2 & B2 & N4); [intros x Hx; apply (I l2); cbn; auto|].
  destruct (G _ _ K33) as (w3 & W3 & N5); [intros x Hx; apply (I l3); cbn; auto|]. destruct (G _ _ K34) as (b3 & B3 & N6); [intros x Hx; apply (I l3); cbn; auto|].
  set (dd := [mk_ndesc m a w1 b1 (Builtin Relu); mk_ndesc a b w2 b2 (Builtin Relu); mk_ndesc b 1 w3 b3 (Builtin Sigmoid)]).
  assert (NW : network dd).
  { split; [discriminate|]. split; [|split; [cbn; auto|cbn; lia]]. repeat constructor; cbn [d_in d_out d_w d_b]; try lia; try assumption; nia. }
  assert (OUT : ~ In (cn_self nn) (flat_map layer_blocks (cn_layers nn)) /\ ~ In (cn_arr nn) (flat_map layer_blocks (cn_layers nn))).
  { unfold net_blocks in ND. inversion ND as [|? ? Q1 ND1]; subst. inversion ND1 as [|? ? Q2 ND2]; subst. split; intros Q; [apply Q1; right; exact Q|exact (Q2 Q)]. }
  rewrite CL in OUT.
  assert (NH : net_has (floats h nn) dd nn).
  { split; [|split; [|split; [|exact ND]]].
    - rewrite CL. repeat constructor; cbn [d_in d_out d_w d_b d_f]; assumption.
    - apply (live_same h); [apply SF, OUT|exact L1].
    - apply (live_same h); [apply SF, OUT|exact L2]. }
  destruct (net_round_trip alloc utf8 (fun _ _ => true) (fun _ => false) (fun _ _ => None) (floats h nn) [] nn dd three_names [Some (Builtin Relu); Some (Builtin Relu); Some (Builtin Sigmoid)] HA (fun _ _ => eq_refl) HU eq_refl) as (h' & ar & E & S & D & _).
  { apply Forall_forall. intros d Hd. unfold dd in Hd. cbn [In] in Hd. destruct Hd as [<-|[<-|[<-|[]]]]; cbn; tauto. }
  { repeat constructor; cbn; try discriminate; try lia; intros Q; repeat (destruct Q as [Q|Q]; [discriminate|]); exact Q. }
  { cbn. lia. }
  { exact NW. }
  { exact NH. }
  rewrite LF in S, D. exists h', ar. split; [exact E|].
  assert (INF : is_net (floats h nn) [m; a; b; 1]%Z nn) by (exact (has_is_net _ _ _ NW NH)).
  assert (LTN : forall x, In x (net_blocks nn) -> x < length h).
  { intros x Hx. unfold net_blocks in Hx. rewrite CL in Hx. destruct Hx as [<-|[<-|Hx]]; [apply live_lt; exact L1|apply live_lt; exact L2|].
    rewrite <- LF. apply in_flat_map in Hx. destruct Hx as (l & Hl & Hx).
    assert (Z1 : forall p s, field_is (floats h nn) p s -> In x (field_blocks p) -> x < length (floats h nn)).
    { intros p s (y & -> & Hy) [<-|[]]. apply nth_error_Some. unfold holds in Hy. congruence. }
    unfold layer_blocks in Hx. apply in_app_or in Hx. destruct Hl as [<-|[<-|[<-|[]]]]; destruct Hx as [Hx|Hx]; eauto. }
  split; [|split; [exact D|split]].
  - intros x Hx NI. rewrite S by exact Hx. apply SF. intros Q. apply NI. unfold net_blocks. rewrite CL. right. right. exact Q.
  - apply (is_net_frame (floats h nn)); [exact INF|]. intros x Hx. apply S, LTN, Hx.
  - destruct (Nat.le_gt_cases (length h) (length h')) as [Q|Q]; [exact Q|exfalso].
    assert (length h' < length h) by exact Q. apply live_lt in L1.
    assert (X : nth_error h' (length h - 1) = nth_error (floats h nn) (length h - 1)) by (apply S; lia).
    assert (nth_error h' (length h - 1) = None) by (apply nth_error_None; lia).
    assert (nth_error (floats h nn) (length h - 1) <> None) by (apply nth_error_Some; lia). congruence.
Qed.

Section Memory.
  Variable mem : nat -> Z -> bool.
  Variable lib_opens : bytes -> bool.
  Variable dlsym : bytes -> bytes -> option (option nat).
  Variable alloc : Z -> bool.
  Variable utf8 : bytes -> bool.
  Variable floats : heap -> cnet -> heap.
  Hypothesis HM : forall k s, mem k s = true.
  Hypothesis HA : forall s, alloc s = true.
  Hypothesis HU : forall s, Forall (fun c => nat_of_ascii c < 128) s -> utf8 s = true.
  Hypothesis HF : writes_floats floats.

  (** the program frees the list and the network, and leaves exactly the three blocks of the optimizer: the structure, the velocity, the
      pivot array *)
  Theorem example_02_leaves : forall h p c1 c2 c3 c4 cs n m nt,
    is_list h p (c1 :: c2 :: c3 :: c4 :: cs) ->
    rows_of (c_m c1) n m -> rows_of (c_m c3) nt m -> np_fortran (c_m c2) = false -> np_fortran (c_m c4) = false ->
    (1 <= m)%Z -> ((m + 1) * 64 < 2147483648)%Z -> (1 <= n < 2147483648)%Z -> (0 <= nt < 2147483648)%Z ->
    exists h' o v q, main_02 mem lib_opens dlsym alloc utf8 floats h [] p = Ok (h', o)
      /\ (forall b, In b (blocks_of (c1 :: c2 :: c3 :: c4 :: cs)) -> dead h' b)
      /\ (forall b, b < length h -> ~ In b (blocks_of (c1 :: c2 :: c3 :: c4 :: cs)) -> nth_error h' b = nth_error h b)
      /\ ro_arrays o = [v] /\ ro_pivot o = Some q /\ NoDup [ro_self o; v; q] /\ Forall (fun b => length h <= b) [ro_self o; v; q]
      /\ (forall b, length h <= b -> (live h' b <-> b = ro_self o \/ b = v \/ b = q)).
  Proof.
    intros h p c1 c2 c3 c4 cs n m nt (CH & ND) (F1 & r1 & R1) (F3 & r3 & R3) F2 F4 M1 M2 N NT. set (all := c1 :: c2 :: c3 :: c4 :: cs) in *.
    assert (LT : forall b, In b (blocks_of all) -> b < length h) by (exact (chain_lt _ _ _ CH)).
    assert (FA : four_arrays h p = Ok (c_m c1, c_m c3)) by (apply (four_arrays_ok h p c1 c2 c3 c4 cs); assumption).
    unfold main_02. rewrite FA. cbn [rbind fst snd]. unfold shape_at. rewrite R1, R3. cbn [nth_error rbind]. unfold as_int.
    replace (m <? 2147483648)%Z with true by (symmetry; apply Z.ltb_lt; lia). replace (n <? 2147483648)%Z with true by (symmetry; apply Z.ltb_lt; lia).
    replace (nt <? 2147483648)%Z with true by (symmetry; apply Z.ltb_lt; lia). cbn [rbind].
    assert (FIT : sizes_fit [m; 64; 32; 1]%Z) by (split; repeat constructor; cbn; lia).
    destruct (create_network mem lib_opens dlsym h [] 3 [m; 64; 32; 1]%Z
      [Some (list_ascii_of_string "relu"); Some (list_ascii_of_string "relu"); Some (list_ascii_of_string "sigmoid")] ltac:(lia) eq_refl FIT (le_n 3))
      as (h5 & st5 & nn & C & IN & _ & _ & B5 & S5 & _).
    { apply Forall_forall. intros o Ho s ->. cbn [In] in Ho. apply no_at_short.
      destruct Ho as [Q|[Q|[Q|[]]]]; injection Q as <-; cbn; intros Q; repeat (destruct Q as [Q|Q]; [discriminate|]); exact Q. }
    { exact HM. }
    match type of C with ?l = _ => match goal with |- context [create mem lib_opens dlsym h [] ?k ?a ?b] => change (create mem lib_opens dlsym h [] k a b) with l end end.
    destruct (three_funcs mem lib_opens dlsym h [] _ _ h5 st5 nn C) as (ES & FU).
    { pose proof (proj1 IN) as F. apply Forall2_len in F. rewrite <- F. reflexivity. }
    rewrite C. rewrite ES. cbn [rbind]. change (get_loss_func "binary_crossentropy") with (Some BCE). cbv iota.
    assert (G5 : length h <= length h5) by (pose proof (proj1 (B5 (cn_self nn)) (or_introl eq_refl)); lia).
    assert (NO : net_of h5 [m; 64; 32; 1]%Z nn (parameters (steps [m; 64; 32; 1]%Z))).
    { split; [exact IN|]. split; [repeat constructor; cbn; lia|]. split; [reflexivity|]. cbn. lia. }
    match goal with |- context [optimizer_new mem K_SGD h5 statics0 _ _ ?c] =>
      destruct (optimizer_new_ok mem K_SGD h5 statics0 h5 _ nn _ BCE c NO ltac:(cbn; lia) HM) as (h6 & st6 & o & EO & (I1 & I2 & I3 & I4 & I5) & KO & _ & B6 & S6) end.
    rewrite EO. cbn [rbind]. rewrite KO in I1. cbn in I1.
    assert (G6 : length h5 <= length h6) by (pose proof (proj1 (B6 (ro_self o)) (or_introl eq_refl)); lia).
    cbn [epochs_memory]. unfold prepare_pivot. destruct (Z.eqb_spec n 0); [lia|]. rewrite malloc_ok by apply HM. rewrite I4. cbn [rbind ro_pivot].
    set (h7 := h6 ++ [new_mem (n * 4)]). assert (L7 : length h7 = 1 + length h6) by (unfold h7; rewrite app_length; cbn; lia).
    assert (S7 : forall b, b < length h6 -> nth_error h7 b = nth_error h6 b) by (intros b Hb; apply nth_error_app1; exact Hb).
    assert (V7 : live h7 (length h6)) by apply live_app. clearbody h7.
    destruct V7 as (b7 & V7). rewrite (h_get_holds _ _ _ V7). cbn [rbind].
    assert (IN7 : is_net h7 [m; 64; 32; 1]%Z nn).
    { apply (is_net_frame h5); [exact IN|]. intros b Hb. apply B5 in Hb. rewrite S7, S6 by lia. reflexivity. }
    destruct (saving_frees alloc utf8 floats h7 nn m _ _ HA HU HF IN7 FU M1 ltac:(lia) ltac:(lia) ltac:(lia)) as (h8 & ar & E8 & S8 & D8 & IN8 & G8). rewrite E8. cbn [rbind fst].
    destruct (free_network h8 _ nn IN8) as (h9 & E9 & D9 & S9). rewrite E9. cbn [rbind].
    assert (OLD : forall b, b < length h -> nth_error h9 b = nth_error h b).
    { intros b Hb. rewrite S9 by (rewrite B5; lia). rewrite S8 by (try rewrite B5; lia). rewrite S7, S6, S5 by lia. reflexivity. }
    assert (LI : is_list h9 p all) by (split; [apply (chain_frame h); [exact CH|intros b Hb; apply OLD, LT, Hb]|exact ND]).
    pose proof (is_list_len _ _ _ LI) as LEN. destruct (free_chain all h9 p (S (length h9)) LI ltac:(lia)) as (h10 & E10 & _ & D10 & S10). rewrite E10. cbn [rbind].
    destruct (ro_arrays o) as [|v [|? ?]] eqn:AR; try (cbn in I1; lia).
    assert (OB : forall b, In b (opt_blocks o) <-> b = ro_self o \/ b = v).
    { intros b. unfold opt_blocks. rewrite AR, I4. cbn. intuition congruence. }
    exists h10. eexists. exists v, (length h6). split; [reflexivity|]. split; [exact D10|]. split; [intros b Hb NI; rewrite S10 by exact NI; apply OLD; exact Hb|].
    cbn [ro_arrays ro_pivot ro_self]. split; [reflexivity|]. split; [reflexivity|].
    assert (Q1 : length h5 <= ro_self o < length h6) by (apply B6, OB; left; reflexivity). assert (Q2 : length h5 <= v < length h6) by (apply B6, OB; right; reflexivity).
    assert (LL : forall b, length h <= b -> ~ In b (blocks_of all)) by (intros b Hb Q; apply LT in Q; lia).
    assert (NV : ro_self o <> v). { unfold opt_blocks in I5. rewrite AR in I5. inversion I5 as [|? ? NI _]. intros Q. apply NI. left. symmetry. exact Q. }
    split; [repeat constructor; cbn; lia|]. split; [repeat constructor; lia|]. intros b Hb.
    assert (K : forall x, length h <= x < length h7 -> ~ In x (net_blocks nn) -> nth_error h10 x = nth_error h7 x).
    { intros x Hx NX. rewrite S10 by (apply LL; lia). rewrite S9 by exact NX. apply S8; [lia|exact NX]. }
    split.
    - intros (bb & LV). unfold holds in LV. rewrite S10 in LV by (apply LL; exact Hb).
      destruct (in_dec Nat.eq_dec b (net_blocks nn)) as [Q3|Q3]; [apply D9 in Q3; unfold dead in Q3; congruence|]. rewrite S9 in LV by exact Q3. rewrite B5 in Q3.
      assert (b < length h8) by (apply nth_error_Some; congruence).
      destruct (Nat.lt_ge_cases b (length h7)) as [Q4|Q4]; [|assert (Q5 : dead h8 b) by (apply D8; lia); unfold dead in Q5; congruence].
      destruct (Nat.eq_dec b (length h6)) as [-> |Q5]; [right; right; reflexivity|]. assert (Q6 : In b (opt_blocks o)) by (apply B6; lia). apply OB in Q6. tauto.
    - intros Q. assert (Q3 : ~ In b (net_blocks nn)) by (rewrite B5; lia). apply (live_same h7); [apply K; [lia|exact Q3]|].
      destruct Q as [-> |[-> | -> ]].
      + apply (live_same h6); [apply S7; lia|exact I3].
      + apply (live_same h6); [apply S7; lia|]. rewrite Forall_forall in I2. destruct (I2 v (or_introl eq_refl)) as (bs & Q & _). exists (BMem bs). exact Q.
      + exists b7. exact V7.
  Qed.
End Memory.
Print Assumptions example_02_leaves.

(** so the program does not free all its memory: a heap with nothing but the list of four arrays *)
Definition ex_arr (n m : Z) : npy := mk_npy [] [n; m] 2 "<" "f" 4 false false.
Definition ex_cells : list cell := [mk_cell 0 1 2 3 (ex_arr 3 2) []; mk_cell 4 5 6 7 (ex_arr 3 1) []; mk_cell 8 9 10 11 (ex_arr 1 2) []; mk_cell 12 13 14 15 (ex_arr 1 1) []].
Definition ex_list_heap : heap :=
  [Some (BNode (Some 1) (Some 3) (Some 4)); Some (BArr (ex_arr 3 2) 2); Some BData; Some (BName []);
   Some (BNode (Some 5) (Some 7) (Some 8)); Some (BArr (ex_arr 3 1) 6); Some BData; Some (BName []);
   Some (BNode (Some 9) (Some 11) (Some 12)); Some (BArr (ex_arr 1 2) 10); Some BData; Some (BName []);
   Some (BNode (Some 13) (Some 15) None); Some (BArr (ex_arr 1 1) 14); Some BData; Some (BName [])].
Example ex_is_list : is_list ex_list_heap (Some 0) ex_cells.
Proof.
  split; [|cbn; repeat constructor; cbn; lia].
  apply (chain_cons _ (mk_cell 0 1 2 3 (ex_arr 3 2) []) (Some 4)); try reflexivity; [eexists; reflexivity|].
  apply (chain_cons _ (mk_cell 4 5 6 7 (ex_arr 3 1) []) (Some 8)); try reflexivity; [eexists; reflexivity|].
  apply (chain_cons _ (mk_cell 8 9 10 11 (ex_arr 1 2) []) (Some 12)); try reflexivity; [eexists; reflexivity|].
  apply (chain_cons _ (mk_cell 12 13 14 15 (ex_arr 1 1) []) None); try reflexivity; [eexists; reflexivity|]. constructor.
Qed.
Example ex_rows : rows_of (ex_arr 3 2) 3 2 /\ rows_of (ex_arr 1 2) 1 2.
Proof. split; (split; [reflexivity|exists []; reflexivity]). Qed.
Theorem example_02_frees_refuted : exists h p, forall lib_opens dlsym floats, writes_floats floats ->
  exists h' o, main_02 (fun _ _ => true) lib_opens dlsym (fun _ => true) (fun _ => true) floats h [] p = Ok (h', o)
  /\ exists b, length h <= b /\ live h' b.
Proof.
  exists ex_list_heap, (Some 0). intros lo ds fl HF.
  destruct (example_02_leaves (fun _ _ => true) lo ds (fun _ => true) (fun _ => true) fl (fun _ _ => eq_refl) (fun _ => eq_refl) (fun _ _ => eq_refl) HF) with (h := ex_list_heap) (p := Some 0)
    (c1 := mk_cell 0 1 2 3 (ex_arr 3 2) []) (c2 := mk_cell 4 5 6 7 (ex_arr 3 1) []) (c3 := mk_cell 8 9 10 11 (ex_arr 1 2) []) (c4 := mk_cell 12 13 14 15 (ex_arr 1 1) [])
    (cs := @nil cell) (n := 3%Z) (m := 2%Z) (nt := 1%Z) as (h' & o & v & q & E & _ & _ & _ & _ & _ & F & L).
  - exact ex_is_list.
  - exact (proj1 ex_rows).
  - exact (proj2 ex_rows).
  - reflexivity.
  - reflexivity.
  - lia.
  - lia.
  - lia.
  - lia.
  - exists h', o. split; [exact E|]. exists (ro_self o). inversion F; subst. split; [assumption|]. apply L; [assumption|]. left. reflexivity.
Qed.
Print Assumptions example_02_frees_refuted.
(** floats that are all zero, and a run with them *)
Definition all_zero (h : heap) (nn : cnet) : heap :=
  fold_left (fun h x => match nth_error h x with Some (Some (BMem l)) => set_nth h x (Some (BMem (map (fun _ => Some "000"%char) l))) | _ => h end)
    (flat_map layer_blocks (cn_layers nn)) h.
Lemma all_zero_writes : writes_floats all_zero.
Proof.
  intros h sizes nn (_ & _ & _ & ND). unfold net_blocks in ND. apply NoDup_cons_iff in ND. destruct ND as (_ & ND). apply NoDup_cons_iff in ND. destruct ND as (_ & ND).
  unfold all_zero. revert h ND. generalize (flat_map layer_blocks (cn_layers nn)). induction l as [|y l IH]; intros h ND; cbn [fold_left].
  - split; [reflexivity|]. split; [reflexivity|]. intros x c [].
  - apply NoDup_cons_iff in ND. destruct ND as (NY & ND). match goal with |- context [fold_left _ l ?z] => set (h1 := z) end.
    destruct (IH h1 ND) as (A & B & C).
    assert (LN : length h1 = length h) by (unfold h1; destruct (nth_error h y) as [[[]|]|]; try reflexivity; apply length_set_nth).
    assert (OT : forall x, x <> y -> nth_error h1 x = nth_error h x) by (intros x Hx; unfold h1; destruct (nth_error h y) as [[[]|]|]; try reflexivity; apply set_other; congruence).
    split; [congruence|]. split.
    + intros x Hx. rewrite B by (intros Q; apply Hx; right; exact Q). apply OT. intros ->. apply Hx. left. reflexivity.
    + intros x c [<-|Hx] H.
      * exists (map (fun _ => "000"%char) c). split; [apply map_length|]. unfold holds in *. rewrite B by exact NY. unfold h1. rewrite H.
        rewrite set_same by (apply nth_error_Some; congruence). rewrite map_map. reflexivity.
      * apply C; [exact Hx|]. unfold holds in *. rewrite OT; [exact H|]. intros ->. contradiction.
Qed.

Example example_02_run : (match main_02 (fun _ _ => true) (fun _ => false) (fun _ _ => None) (fun _ => true) (fun _ => true) all_zero ex_list_heap [] (Some 0) with
  | Ok (h, o) => Some (length (filter (fun b => match b with Some _ => true | None => false end) h), ro_self o, ro_arrays o, ro_pivot o) | Fault _ => None end) = Some (3, 24, [25], Some 26).
Proof. vm_compute. reflexivity. Qed.

(** the evaluation program: with a file that the program has saved, every block that it takes is freed, and the list too *)
Theorem example_02b_frees : forall alloc mem utf8 lib_opens dlsym hs rst cn ds ns fs,
  (forall s, alloc s = true) -> (forall k s, mem k s = true) ->
  (forall s, Forall (fun c => nat_of_ascii c < 128) s -> utf8 s = true) ->
  lookups lib_opens dlsym [] ns = Ok (rst, fs) -> Forall (fun d => In (Some (d_f d)) fs) ds ->
  Forall (fun s => s <> [] /\ ~ In "000"%char s /\ (Z.of_nat (length s) * Z.of_nat (length ds) < 2147483648)%Z) ns ->
  (Z.of_nat (length ds) < 178956970)%Z -> network ds -> net_has hs ds cn ->
  exists hs' ar, net_save alloc utf8 hs rst cn = Ok (hs', Some ar) /\
    forall h st p c1 c2 c3 c4 cs n m nt,
      is_list h p (c1 :: c2 :: c3 :: c4 :: cs) ->
      rows_of (c_m c1) n m -> rows_of (c_m c3) nt m -> np_fortran (c_m c2) = false -> np_fortran (c_m c4) = false ->
      (0 <= n < 2147483648)%Z -> (0 <= nt < 2147483648)%Z ->
      exists h', main_02b_memory alloc mem lib_opens dlsym h st p ar = Ok h'
        /\ (forall b, In b (blocks_of (c1 :: c2 :: c3 :: c4 :: cs)) -> dead h' b)
        /\ (forall b, b < length h -> ~ In b (blocks_of (c1 :: c2 :: c3 :: c4 :: cs)) -> nth_error h' b = nth_error h b)
        /\ (forall b, length h <= b -> ~ live h' b).
Proof.
  intros alloc mem utf8 lib_opens dlsym hs rst cn ds ns fs HA HM HU LK FD FN LD NW NH.
  destruct (net_round_trip alloc utf8 mem lib_opens dlsym hs rst cn ds ns fs HA HM HU LK FD FN LD NW NH) as (hs' & ar & E & _ & _ & LOAD).
  exists hs', ar. split; [exact E|]. intros h st p c1 c2 c3 c4 cs n m nt (CH & ND) (F1 & r1 & R1) (F3 & r3 & R3) F2 F4 N NT. set (all := c1 :: c2 :: c3 :: c4 :: cs) in *.
  assert (LT : forall b, In b (blocks_of all) -> b < length h) by (exact (chain_lt _ _ _ CH)).
  unfold main_02b_memory. rewrite (four_arrays_ok h p c1 c2 c3 c4 cs CH F1 F2 F3 F4). cbn [rbind fst snd].
  destruct (LOAD h st) as (h1 & st1 & nn & EL & NH1 & _ & S1 & D1 & B1). rewrite EL. cbn [rbind]. unfold shape_at. rewrite R1, R3. cbn [nth_error rbind]. unfold as_int.
  replace (n <? 2147483648)%Z with true by (symmetry; apply Z.ltb_lt; lia). replace (nt <? 2147483648)%Z with true by (symmetry; apply Z.ltb_lt; lia). cbn [rbind].
  destruct (free_network h1 _ nn (has_is_net _ _ _ NW NH1)) as (h2 & E2 & D2 & S2). rewrite E2. cbn [rbind].
  assert (OLD : forall b, b < length h -> nth_error h2 b = nth_error h b).
  { intros b Hb. rewrite S2; [apply S1; exact Hb|]. intros Q. apply B1 in Q. lia. }
  assert (LI : is_list h2 p all) by (split; [apply (chain_frame h); [exact CH|intros b Hb; apply OLD, LT, Hb]|exact ND]).
  pose proof (is_list_len _ _ _ LI) as LEN. destruct (free_chain all h2 p (S (length h2)) LI ltac:(lia)) as (h3 & E3 & _ & D3 & S3).
  exists h3. split; [exact E3|]. split; [exact D3|]. split; [intros b Hb NI; rewrite S3 by exact NI; apply OLD; exact Hb|].
  intros b Hb (bb & LV). unfold holds in LV. rewrite S3 in LV by (intros Q; apply LT in Q; lia).
  destruct (in_dec Nat.eq_dec b (net_blocks nn)) as [Q|Q]; [apply D2 in Q; unfold dead in Q; congruence|]. rewrite S2 in LV by exact Q.
  assert (b < length h1) by (apply nth_error_Some; congruence). destruct (D1 b ltac:(lia)) as [Q1|Q1]; [contradiction|]. unfold dead in Q1. congruence.
Qed.
Print Assumptions example_02b_frees.
(** the premises about the list are met by ex_is_list and ex_rows, those about the network by the network of Prop_NetFile.v: the program runs to the end *)
Example example_02b_case : exists hs' ar h', net_save (fun _ => true) (fun _ => true) ex_net_heap [] ex_net = Ok (hs', Some ar)
  /\ main_02b_memory (fun _ => true) (fun _ _ => true) (fun _ => false) (fun _ _ => None) ex_list_heap [] (Some 0) ar = Ok h'
  /\ forallb (fun b => match b with Some _ => false | None => true end) h' = true.
Proof. eexists. eexists. eexists. split; [vm_compute; reflexivity|]. split; [vm_compute; reflexivity|]. vm_compute. reflexivity. Qed.
