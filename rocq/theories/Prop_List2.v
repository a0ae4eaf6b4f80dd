(** Prop_List2.v -- C95: saving a list some elements of which have no name. *)
From Coq Require Import ZArith Bool String Ascii List Lia.
From Verif Require Import Base BaseProofs Logger SpecLog LoggerProofs Npy SpecNpy NpyProofs NpyProofs2 NpyList SpecList ListProofs Prop_Npy Prop_List.
Import ListNotations.
Local Open Scope nat_scope.

(** ** the spec: an element of a list whose name may be missing *)
Record ucell := mk_ucell { u_node : nat; u_arr : nat; u_data : nat; u_m : npy; u_name : option (nat * list ascii) }.
Definition name_ptr (u : ucell) : ptr := match u_name u with Some (x, _) => Some x | None => None end.
Definition name_ok (h : heap) (u : ucell) : Prop :=
  match u_name u with Some (x, s) => holds h x (BName s) | None => True end.
Definition ublocks (us : list ucell) : list nat :=
  flat_map (fun u => [u_node u; u_arr u; u_data u] ++ match u_name u with Some (x, _) => [x] | None => [] end) us.
Inductive uchain (h : heap) : ptr -> list ucell -> Prop :=
| uchain_nil : uchain h None []
| uchain_cons u next us :
    holds h (u_node u) (BNode (Some (u_arr u)) (name_ptr u) next) ->
    holds h (u_arr u) (BArr (u_m u) (u_data u)) -> live h (u_data u) -> name_ok h u ->
    uchain h next us -> uchain h (Some (u_node u)) (u :: us).
Definition is_ulist (h : heap) (p : ptr) (us : list ucell) : Prop := uchain h p us /\ NoDup (ublocks us).

(** "arr_3.npy": no leading zeros *)
Definition default_name (n : nat) (s : list ascii) : Prop :=
  exists d, s = txt "arr_" ++ d ++ txt ".npy" /\ numeral (Z.of_nat n) d /\ (hd_error d = Some "0"%char -> d = ["0"%char]).
(** the name of an element at position n *)
Definition gets_name (n : nat) (u : ucell) (s : list ascii) : Prop :=
  match u_name u with Some (_, t) => s = t | None => default_name n s end.
Fixpoint get_names (n : nat) (us : list ucell) (ss : list (list ascii)) : Prop :=
  match us, ss with
  | [], [] => True
  | u :: us, s :: ss => gets_name n u s /\ get_names (S n) us ss
  | _, _ => False
  end.

(** ** the numbers have no leading zeros *)
Lemma digits_head f : forall z, (0 <= z < 10 ^ Z.of_nat f)%Z -> 0 < f -> hd_error (digits f z) = Some "0"%char -> digits f z = ["0"%char].
Proof.
  induction f as [|f IH]; intros z H Hf; [lia|]. cbn [digits]. destruct (z <? 10)%Z eqn:E.
  - cbn. intros Q. congruence.
  - apply Z.ltb_ge in E. assert (Hf' : 0 < f). { destruct f; [simpl in H; lia|lia]. }
    assert (HD : (0 <= z / 10 < 10 ^ Z.of_nat f)%Z).
    { split; [apply Z.div_pos; lia|]. apply Z.div_lt_upper_bound; [lia|].
      replace (10 * 10 ^ Z.of_nat f)%Z with (10 ^ Z.of_nat (S f))%Z; [lia|]. rewrite Nat2Z.inj_succ, Z.pow_succ_r by lia. reflexivity. }
    pose proof (digits_nonempty f (z / 10) Hf') as NE. intros Q. exfalso.
    assert (Q' : hd_error (digits f (z / 10)) = Some "0"%char).
    { destruct (digits f (z / 10)); [congruence|exact Q]. }
    pose proof (digits_val f (z / 10) HD Hf') as V. rewrite (IH _ HD Hf' Q') in V. cbn in V. injection V as V.
    assert (1 <= z / 10)%Z by (apply Z.div_le_lower_bound; lia). lia.
Qed.

Lemma internal_default n : (Z.of_nat n <= 2147483647)%Z -> default_name n (internal_filename n).
Proof.
  intros H. exists (fmt_d (Z.of_nat n)). split; [reflexivity|]. split; [apply fmt_d_numeral; lia|].
  unfold fmt_d. destruct (Z.ltb_spec (Z.of_nat n) 0); [lia|]. apply digits_head; [|lia].
  change (10 ^ Z.of_nat 11)%Z with 100000000000%Z. lia.
Qed.

Lemma internal_short n : (Z.of_nat n <= 2147483647)%Z -> plain (internal_filename n) /\ length (internal_filename n) <= 80.
Proof.
  intros H. unfold internal_filename. split.
  - unfold plain. intros Q. rewrite !in_app_iff in Q.
    destruct Q as [Q|[Q|Q]]; [cbn in Q; intuition discriminate| |cbn in Q; intuition discriminate].
    unfold fmt_d in Q. destruct (Z.ltb_spec (Z.of_nat n) 0); [lia|].
    assert (D : Forall (fun c => is_digit c = true) (digits 11 (Z.of_nat n))) by apply digits_are.
    rewrite Forall_forall in D. specialize (D _ Q). discriminate.
  - rewrite !app_length. pose proof (fmt_d_len (Z.of_nat n) ltac:(lia)). cbn [chars list_ascii_of_string length]. lia.
Qed.

(** ** the heap *)
Definition short_name (u : ucell) : Prop := match u_name u with Some (_, s) => plain s /\ length s <= 80 | None => True end.
Lemma uchain_lt h p us : uchain h p us -> forall x, In x (ublocks us) -> x < length h.
Proof.
  induction 1 as [|u next us H1 H2 H3 H4 HC IH]; intros x Hx; [destruct Hx|].
  cbn [ublocks flat_map] in Hx. rewrite !in_app_iff in Hx. destruct Hx as [[Hx|Hx]|Hx].
  - cbn in Hx. destruct Hx as [<-|[<-|[<-|[]]]]; [eapply holds_lt|eapply holds_lt|eapply live_lt]; eassumption.
  - unfold name_ok in H4. destruct (u_name u) as [[y s]|]; [|destruct Hx]. destruct Hx as [<-|[]]. eapply holds_lt; eassumption.
  - apply IH. exact Hx.
Qed.
Lemma uchain_frame h h' p us : uchain h p us -> (forall x, In x (ublocks us) -> nth_error h' x = nth_error h x) -> uchain h' p us.
Proof.
  induction 1 as [|u next us H1 H2 H3 H4 HC IH]; intros O; [constructor|]. cbn [ublocks flat_map] in O.
  apply (uchain_cons h' u next us); unfold name_ok, live, holds in *.
  - rewrite O; [exact H1|]. cbn. tauto.
  - rewrite O; [exact H2|]. cbn. tauto.
  - rewrite O; [exact H3|]. cbn. tauto.
  - destruct (u_name u) as [[y s]|] eqn:E; [|exact I]. rewrite O; [exact H4|]. rewrite !in_app_iff. left. right. left. reflexivity.
  - apply IH. intros x Hx. apply O. apply in_or_app. right. exact Hx.
Qed.
Lemma ublocks_len us : length us <= length (ublocks us).
Proof. induction us as [|u us IH]; [cbn; lia|]. cbn [ublocks flat_map]. rewrite !app_length. cbn [length]. fold (ublocks us). lia. Qed.
Lemma unode_in us x : In x (map u_node us) -> In x (ublocks us).
Proof. intros H. apply in_map_iff in H. destruct H as (u & <- & Hu). apply in_flat_map. exists u. split; [exact Hu|left; reflexivity]. Qed.

Section Save.
  Variable alloc : Z -> bool.
  Variable utf8 : bytes -> bool.
  Definition saved (cs : list cell) (ar : list member) : list member :=
    fold_left (fun ar c => add_member utf8 ar (c_str c) (npy_bytes (c_m c))) cs ar.

  Lemma usave us comp : alloc 80%Z = true -> forall h p, uchain h p us -> NoDup (ublocks us) ->
    Forall (fun u => storable (u_m u) /\ alloc (Z.of_nat (length (npy_bytes (u_m u)))) = true) us ->
    forall fuel ar n, length us < fuel -> length ar <= n -> (Z.of_nat (n + length us) <= 2147483647)%Z ->
    exists h' cs, save_loop alloc utf8 fuel h p comp ar n = Ok (h', saved cs ar, n + length us)
      /\ chain h' p cs /\ NoDup (blocks_of cs) /\ arrays_of cs = map u_m us /\ get_names n us (names_of cs)
      /\ length h <= length h'
      /\ (forall x, x < length h -> ~ In x (map u_node us) -> nth_error h' x = nth_error h x)
      /\ (forall x, In x (blocks_of cs) -> In x (ublocks us) \/ length h <= x)
      /\ (Forall short_name us -> Forall (fun c => plain (c_str c) /\ length (c_str c) <= 80) cs).
  Proof.
    intros A80. induction us as [|u us IH]; intros h p HC HN HS fuel ar n HF HL HB.
    - inversion HC; subst. exists h, []. destruct fuel as [|f]; [lia|]. cbn [save_loop]. cbn. rewrite Nat.add_0_r.
      repeat split; try constructor; tauto.
    - inversion HC as [|u' next us' H1 H2 H3 H4 HC']; subst. pose proof (uchain_lt _ _ _ HC) as LT.
      pose proof (uchain_lt _ _ _ HC') as LT'.
      destruct fuel as [|f]; [lia|]. cbn [save_loop].
      unfold zip_set_compression. destruct (nth_error ar n) eqn:En.
      { assert (n < length ar) by (apply nth_error_Some; congruence). lia. }
      rewrite (get_node_holds _ _ _ _ _ H1). cbn [rbind].
      assert (B3 : NoDup [u_node u; u_arr u; u_data u] /\ (forall x, In x [u_node u; u_arr u; u_data u] -> ~ In x (ublocks us)) /\ NoDup (ublocks us)).
      { cbn [ublocks flat_map] in HN. fold (ublocks us) in HN. rewrite <- app_assoc in HN. cbn [app] in HN.
        inversion HN as [|? ? N1 HN1]; subst. inversion HN1 as [|? ? N2 HN2]; subst. inversion HN2 as [|? ? N3 HN3]; subst.
        split; [|split].
        - repeat constructor; cbn in *; rewrite ?in_app_iff in *; intuition congruence.
        - intros x Hx Q. cbn in Hx. cbn in N1, N2, N3. rewrite in_app_iff in N1, N2, N3. intuition (subst; tauto).
        - clear - HN3. induction (match u_name u with Some (x, _) => [x] | None => [] end) as [|y l IH]; [exact HN3|].
          cbn in HN3. inversion HN3; subst. apply IH. assumption. }
      destruct B3 as (ND3 & NU & NDU).
      set (step := match name_ptr u with
                   | Some s => rbind (get_name h s) (fun str => Ok (h, str))
                   | None => if alloc 80 then
                               let (h', s) := h_new h (BName (internal_filename n)) in
                               Ok (set_nth h' (u_node u) (Some (BNode (Some (u_arr u)) (Some s) next)), internal_filename n)
                             else Fault BadPointer
                   end).
      assert (ST : exists h1 nb str, step = Ok (h1, str) /\ length h <= length h1
         /\ (forall x, x < length h -> x <> u_node u -> nth_error h1 x = nth_error h x)
         /\ holds h1 (u_node u) (BNode (Some (u_arr u)) (Some nb) next) /\ holds h1 nb (BName str)
         /\ gets_name n u str /\ (In nb (ublocks (u :: us)) \/ length h <= nb)
         /\ ~ In nb [u_node u; u_arr u; u_data u] /\ ~ In nb (ublocks us) /\ nb < length h1
         /\ (short_name u -> plain str /\ length str <= 80)).
      { unfold step, name_ptr, gets_name, short_name in *. unfold name_ok in H4. destruct (u_name u) as [[x s]|] eqn:EN.
        - rewrite (get_name_holds _ _ _ H4). cbn [rbind]. exists h, x, s. split; [reflexivity|]. split; [lia|].
          split; [reflexivity|]. split; [exact H1|]. split; [exact H4|]. split; [reflexivity|].
          assert (IX : In x (ublocks (u :: us))).
          { cbn [ublocks flat_map]. rewrite EN. rewrite !in_app_iff. left. right. left. reflexivity. }
          split; [left; exact IX|]. cbn [ublocks flat_map] in HN. fold (ublocks us) in HN. rewrite EN in HN. rewrite <- app_assoc in HN.
          pose proof (NoDup_remove_2 _ _ _ HN) as Q. rewrite in_app_iff in Q. split; [tauto|]. split; [tauto|]. split; [apply LT; exact IX|tauto].
        - rewrite A80. unfold h_new. exists (set_nth (h ++ [Some (BName (internal_filename n))]) (u_node u) (Some (BNode (Some (u_arr u)) (Some (length h)) next))), (length h), (internal_filename n).
          pose proof (holds_lt _ _ _ H1) as L1.
          split; [reflexivity|]. split; [rewrite length_set_nth, app_length; lia|]. split.
          { intros x Hx NX. rewrite set_other by congruence. apply app_old. exact Hx. }
          split; [apply set_same; rewrite app_length; lia|]. split; [unfold holds; rewrite set_other by lia; apply app_new|].
          split; [apply internal_default; lia|]. split; [right; lia|].
          split; [intros Q; assert (In (length h) (ublocks (u :: us))) by (cbn [ublocks flat_map]; rewrite !in_app_iff; tauto); pose proof (LT (length h) ltac:(assumption)); lia|].
          split; [intros Q; pose proof (LT' _ Q); lia|]. split; [rewrite length_set_nth, app_length; cbn; lia|].
          intros _. apply internal_short. lia. }
      destruct ST as (h1 & nb & str & ES & L1 & O1 & N1 & N2 & GN & IB & D1 & D2 & LB & SN).
      fold step. rewrite ES. cbn [rbind].
      assert (DIFF : u_arr u <> u_node u /\ u_data u <> u_node u).
      { inversion ND3 as [|? ? Q _]; subst. cbn in Q. split; intros E; apply Q; rewrite <- E; cbn; tauto. }
      assert (H2' : holds h1 (u_arr u) (BArr (u_m u) (u_data u))).
      { unfold holds. rewrite O1; [exact H2|eapply holds_lt; exact H2|apply DIFF]. }
      assert (H3' : live h1 (u_data u)).
      { unfold live, holds. rewrite O1; [exact H3|eapply live_lt; exact H3|apply DIFF]. }
      rewrite (get_arr_holds _ _ _ _ H2'). cbn [rbind fst].
      pose proof (Forall_inv HS) as (HSu & A1). cbn beta in HSu, A1.
      destruct (get_header_storable (u_m u) HSu) as (hd & E1 & E2 & E3 & E4).
      rewrite E1. cbn [rbind]. rewrite E2. cbn [rbind]. rewrite <- E3, app_length, Nat2Z.inj_add in A1. rewrite A1. cbn [negb].
      rewrite Z.leb_refl. cbn [negb]. rewrite Nat2Z.id, firstn_all.
      replace (hd ++ np_data (u_m u)) with (npy_bytes (u_m u)) by (symmetry; exact E3).
      fold (add_member utf8 ar str (npy_bytes (u_m u))).
      assert (HC1 : uchain h1 next us).
      { eapply uchain_frame; [exact HC'|]. intros x Hx. apply O1; [apply LT'; exact Hx|]. intros ->.
        apply (NU (u_node u)); [left; reflexivity|exact Hx]. }
      destruct (IH h1 next HC1 NDU (Forall_inv_tail HS) f (add_member utf8 ar str (npy_bytes (u_m u))) (S n))
        as (h' & cs & R1 & R2 & R3 & R4 & R5 & R6 & R7 & R8 & R9).
      { cbn in HF. lia. }
      { pose proof (add_member_len utf8 ar str (npy_bytes (u_m u))). lia. }
      { cbn [length] in HB. lia. }
      assert (NN : forall x, ~ In x (ublocks us) -> x < length h1 -> nth_error h' x = nth_error h1 x).
      { intros x Q Lx. apply R7; [exact Lx|]. intros Q'. apply Q. apply unode_in. exact Q'. }
      assert (NIN : forall x, In x [u_node u; u_arr u; u_data u] -> x < length h1).
      { intros x Hx. assert (x < length h); [|lia]. apply LT. cbn [ublocks flat_map]. rewrite !in_app_iff. left. left. exact Hx. }
      exists h', (mk_cell (u_node u) (u_arr u) (u_data u) nb (u_m u) str :: cs). split.
      { rewrite R1. cbn [saved fold_left c_str c_m length]. f_equal. f_equal. lia. }
      assert (NC : forall x, In x [u_node u; u_arr u; u_data u; nb] -> ~ In x (blocks_of cs)).
      { intros x Hx Q. assert (XU : ~ In x (ublocks us) /\ x < length h1).
        { change [u_node u; u_arr u; u_data u; nb] with ([u_node u; u_arr u; u_data u] ++ [nb]) in Hx.
          apply in_app_or in Hx. destruct Hx as [Hx|[<-|[]]]; [split; [apply NU; exact Hx|apply NIN; exact Hx]|split; assumption]. }
        destruct (R8 x Q) as [Q'|Q']; [tauto|lia]. }
      split.
      { refine (chain_cons h' (mk_cell (u_node u) (u_arr u) (u_data u) nb (u_m u) str) next cs _ _ _ _ R2);
          cbn [c_node c_arr c_data c_name c_m c_str]; unfold holds, live, holds in *.
        - rewrite NN; [exact N1|apply NU; cbn; tauto|apply NIN; cbn; tauto].
        - rewrite NN; [exact H2'|apply NU; cbn; tauto|apply NIN; cbn; tauto].
        - rewrite NN; [exact H3'|apply NU; cbn; tauto|apply NIN; cbn; tauto].
        - rewrite NN; [exact N2|exact D2|exact LB]. }
      split.
      { unfold blocks_of. cbn [flat_map cell_blocks c_node c_arr c_data c_name app]. fold (blocks_of cs).
        inversion ND3 as [|? ? X1 ND4]; subst. inversion ND4 as [|? ? X2 ND5]; subst. cbn in X1, X2, D1.
        constructor; [cbn; intros [Q|[Q|[Q|Q]]]; [apply X1; tauto|apply X1; tauto|apply D1; left; congruence|eapply (NC (u_node u)); [cbn; tauto|exact Q]]|].
        constructor; [cbn; intros [Q|[Q|Q]]; [apply X2; tauto|apply D1; right; left; congruence|eapply (NC (u_arr u)); [cbn; tauto|exact Q]]|].
        constructor; [cbn; intros [Q|Q]; [apply D1; right; right; left; congruence|eapply (NC (u_data u)); [cbn; tauto|exact Q]]|].
        constructor; [apply NC; cbn; tauto|exact R3]. }
      split; [cbn; rewrite <- R4; reflexivity|]. split; [cbn [get_names names_of map c_str]; split; [exact GN|exact R5]|].
      split; [lia|]. split.
      { intros x Hx Q. cbn in Q. rewrite R7; [apply O1; [exact Hx|intros ->; apply Q; left; reflexivity]|lia|tauto]. }
      split; [|intros Q; constructor; [apply SN; exact (Forall_inv Q)|apply R9; exact (Forall_inv_tail Q)]].
      intros x Hx. unfold blocks_of in Hx. cbn [flat_map cell_blocks c_node c_arr c_data c_name] in Hx. fold (blocks_of cs) in Hx.
      apply in_app_or in Hx. destruct Hx as [Hx|Hx].
      { cbn in Hx. destruct Hx as [Hx|[Hx|[Hx|[<-|[]]]]]; [left|left|left|exact IB]; cbn [ublocks flat_map]; rewrite !in_app_iff; left; left; cbn; tauto. }
      destruct (R8 x Hx) as [Q|Q]; [left; cbn [ublocks flat_map]; apply in_or_app; right; exact Q|right; lia].
  Qed.
End Save.

(** C95: the elements without a name are stored, and from then on named, arr_<position>.npy; the other elements
    keep their names; loading the archive gives the same arrays under these names *)
Theorem npz_unnamed (alloc : Z -> bool) (utf8 : bytes -> bool) h p us comp :
  is_ulist h p us -> us <> [] -> (Z.of_nat (length us) <= 2147483647)%Z ->
  Forall (fun u => storable (u_m u)
                   /\ match u_name u with Some (_, s) => plain s /\ length s <= 80 | None => True end) us ->
  (forall ss, get_names 0 us ss -> NoDup ss /\ Forall (fun s => utf8 s = true) ss) ->
  (forall k, (0 <= k <= 104)%Z -> alloc k = true) ->
  Forall (fun u => alloc (Z.of_nat (128 + length (np_data (u_m u)))) = true /\ alloc (Z.of_nat (length (np_data (u_m u)))) = true) us ->
  exists h' cs ar, list_save_compressed alloc utf8 h p comp = Ok (h', Some ar, length us)
    /\ is_list h' p cs /\ arrays_of cs = map u_m us /\ get_names 0 us (names_of cs) /\ map mb_name ar = names_of cs
    /\ (forall x, x < length h -> ~ In x (map u_node us) -> nth_error h' x = nth_error h x)
    /\ forall h0, exists h2 p2 cs2, list_load alloc h0 ar = Ok (h2, p2) /\ is_list h2 p2 cs2
         /\ names_of cs2 = names_of cs /\ Forall2 same_array (map u_m us) (arrays_of cs2).
Proof.
  intros (HC & HN) HNE HB HS HU HA1 HA2.
  assert (LU : length us <= length h).
  { pose proof (ublocks_len us). assert (length (ublocks us) <= length h); [|lia].
    rewrite <- (seq_length (length h) 0). apply NoDup_incl_length; [exact HN|]. intros x Hx. apply in_seq. pose proof (uchain_lt _ _ _ HC x Hx). lia. }
  destruct (usave alloc utf8 us comp (HA1 80%Z ltac:(lia)) h p HC HN) with (fuel := S (length h)) (ar := @nil member) (n := 0)
    as (h' & cs & R1 & R2 & R3 & R4 & R5 & R6 & R7 & _ & R9); [|lia|cbn; lia|exact HB|].
  { rewrite Forall_forall in *. intros u Hu. split; [apply HS; exact Hu|]. rewrite npy_bytes_len by (apply HS; exact Hu). apply HA2. exact Hu. }
  destruct (HU _ R5) as (ND & UT).
  assert (LC : length cs = length us) by (apply (f_equal (@length npy)) in R4; unfold arrays_of in R4; rewrite !map_length in R4; exact R4).
  assert (PL : Forall (fun c => plain (c_str c) /\ length (c_str c) <= 80) cs).
  { apply R9. eapply Forall_impl; [|exact HS]. cbn. tauto. }
  assert (SC : Forall (fun c => storable (c_m c)) cs).
  { apply (Forall_map c_m). change (map c_m cs) with (arrays_of cs). rewrite R4. apply Forall_map. eapply Forall_impl; [|exact HS]. cbn. tauto. }
  destruct (npz_core alloc utf8 h' p cs comp) as (ar & E1 & E2 & E3 & LD).
  - split; assumption.
  - intros ->. destruct us; [congruence|discriminate].
  - exact SC.
  - unfold names_of in UT. rewrite Forall_map in UT. rewrite Forall_forall in *. intros c Hc. split; [apply PL; exact Hc|]. split; [apply PL; exact Hc|apply UT; exact Hc].
  - exact ND.
  - split; [apply HA1; lia|]. split; [apply HA1; lia|].
    assert (DA : Forall (fun c => alloc (Z.of_nat (128 + length (np_data (c_m c)))) = true /\ alloc (Z.of_nat (length (np_data (c_m c)))) = true) cs).
    { apply (Forall_map c_m (fun m => alloc (Z.of_nat (128 + length (np_data m))) = true /\ alloc (Z.of_nat (length (np_data m))) = true)). change (map c_m cs) with (arrays_of cs). rewrite R4. apply Forall_map. exact HA2. }
    rewrite Forall_forall in *. intros c Hc. destruct (DA c Hc) as (Q1 & Q2). split; [exact Q1|]. split; [|exact Q2].
    apply HA1. destruct (PL c Hc). lia.
  - assert (EA : ar = saved utf8 cs []).
    { unfold list_save_compressed in E1. destruct p as [q|]; [|inversion HC; congruence].
      rewrite (save_chain alloc utf8 h' (Some q) cs comp R2 SC) in E1; [cbn [rbind] in E1; unfold saved; congruence| |rewrite <- LC in LU; lia|cbn; lia].
      rewrite Forall_forall in *. intros c Hc. rewrite npy_bytes_len by (apply SC; exact Hc).
      assert (IM : In (c_m c) (map u_m us)) by (rewrite <- R4; unfold arrays_of; apply in_map; exact Hc).
      apply in_map_iff in IM. destruct IM as (u & EQ & Hu). rewrite <- EQ. apply HA2. exact Hu. }
    exists h', cs, ar. split.
    { unfold list_save_compressed. destruct p as [q|]; [|inversion HC; congruence]. rewrite R1, EA. reflexivity. }
    split; [split; assumption|]. split; [exact R4|]. split; [exact R5|]. split; [exact E2|]. split; [exact R7|].
    intros h0. destruct (LD h0) as (h2 & p2 & cs2 & L1 & L2 & L3 & L4 & _). exists h2, p2, cs2. split; [exact L1|]. split; [exact L2|].
    split; [exact L3|]. rewrite L4, <- R4. unfold arrays_of. clear - SC.
    induction SC as [|c cs Hc SC IH]; constructor; [apply same_reloaded; exact Hc|exact IH].
Qed.
Print Assumptions npz_unnamed.

(** a list of two arrays, the first without a name *)
Definition ex_unnamed_heap : heap := ex_heap ++
  [Some (BNode (Some 1) None (Some 7)); Some (BNode (Some 3) (Some 8) None); Some (BName (txt "bias_0"))].
Definition ex_ucells : list ucell := [mk_ucell 6 1 0 ex_array None; mk_ucell 7 3 2 ex_array2 (Some (8, txt "bias_0"))].
Example npz_unnamed_ex : is_ulist ex_unnamed_heap (Some 6) ex_ucells /\ get_names 0 ex_ucells [txt "arr_0.npy"; txt "bias_0"]
  /\ (forall ss, get_names 0 ex_ucells ss -> NoDup ss)
  /\ exists h' ar, list_save (fun _ => true) (fun _ => true) ex_unnamed_heap (Some 6) = Ok (h', Some ar, 2)
       /\ map mb_name ar = [txt "arr_0.npy"; txt "bias_0"].
Proof.
  split.
  { split.
    - apply (uchain_cons ex_unnamed_heap (mk_ucell 6 1 0 ex_array None) (Some 7)); try reflexivity; try exact I; try (exists BData; reflexivity).
      apply (uchain_cons ex_unnamed_heap (mk_ucell 7 3 2 ex_array2 (Some (8, txt "bias_0"))) None); try reflexivity; try (exists BData; reflexivity). constructor.
    - cbn. repeat constructor; cbn; lia. }
  split; [split; [exists ["0"%char]; split; [reflexivity|]; split; [left; split; [lia|]; split; [discriminate|reflexivity]|reflexivity]|split; [reflexivity|exact I]]|].
  split.
  { intros ss G. destruct ss as [|a [|b [|c ss]]]; cbn in G; try tauto. destruct G as ((d & -> & _) & -> & _).
    repeat constructor; cbn; [|tauto]. intros [Q|[]]. discriminate. }
  eexists. eexists. split; [vm_compute; reflexivity|reflexivity].
Qed.
