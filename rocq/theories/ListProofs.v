(** ListProofs.v -- lemmas about NpyList.v. *)
From Coq Require Import ZArith Bool String Ascii List Permutation Lia.
From Verif Require Import Base BaseProofs Logger SpecLog LoggerProofs Npy SpecNpy NpyProofs NpyProofs2 NpyList SpecList.
Import ListNotations.
Local Open Scope nat_scope.

Lemma holds_lt h x b : holds h x b -> x < length h.
Proof. intros H. apply nth_error_Some. rewrite H. discriminate. Qed.
Lemma live_lt h x : live h x -> x < length h.
Proof. intros (b & H). exact (holds_lt _ _ _ H). Qed.
Lemma live_free h x : live h x -> h_free h x = Ok (set_nth h x None).
Proof. intros (b & H). unfold h_free. unfold holds in H. rewrite H. reflexivity. Qed.
Lemma h_get_holds h x b : holds h x b -> h_get h x = Ok b.
Proof. unfold holds, h_get. intros ->. reflexivity. Qed.
Lemma h_free_holds h x b : holds h x b -> h_free h x = Ok (set_nth h x None).
Proof. unfold holds, h_free. intros ->. reflexivity. Qed.
Lemma get_node_holds h x a s n : holds h x (BNode a s n) -> get_node h x = Ok (a, s, n).
Proof. intros H. unfold get_node. rewrite (h_get_holds _ _ _ H). reflexivity. Qed.
Lemma get_name_holds h x s : holds h x (BName s) -> get_name h x = Ok s.
Proof. intros H. unfold get_name. rewrite (h_get_holds _ _ _ H). reflexivity. Qed.
Lemma get_arr_holds h x m d : holds h x (BArr m d) -> get_arr h x = Ok (m, d).
Proof. intros H. unfold get_arr. rewrite (h_get_holds _ _ _ H). reflexivity. Qed.

Lemma set_same {A} (l : list A) i x : i < length l -> nth_error (set_nth l i x) i = Some x.
Proof. intros H. rewrite nth_error_set_nth. rewrite Nat.eqb_refl. apply Nat.ltb_lt in H. try rewrite H. reflexivity. Qed.
Lemma set_other {A} (l : list A) i j x : i <> j -> nth_error (set_nth l i x) j = nth_error l j.
Proof. intros H. rewrite nth_error_set_nth. destruct (Nat.eqb_spec j i); [congruence|reflexivity]. Qed.

Lemma app_old {A} (h : list A) b x : x < length h -> nth_error (h ++ [b]) x = nth_error h x.
Proof. intros H. apply nth_error_app1. exact H. Qed.
Lemma app_new {A} (h : list A) b : nth_error (h ++ [b]) (length h) = Some b.
Proof. rewrite nth_error_app2 by lia. rewrite Nat.sub_diag. reflexivity. Qed.

(** ** chains *)
Lemma chain_frame h h' p cs : chain h p cs -> (forall x, In x (blocks_of cs) -> nth_error h' x = nth_error h x) -> chain h' p cs.
Proof.
  induction 1 as [|c next cs H1 H2 H3 H4 HC IH]; intros HF; [constructor|].
  unfold blocks_of in HF. cbn [flat_map cell_blocks app] in HF.
  apply (chain_cons h' c next cs); unfold live, holds in *.
  - rewrite HF by (left; reflexivity). exact H1.
  - rewrite HF by (right; left; reflexivity). exact H2.
  - rewrite HF by (right; right; left; reflexivity). exact H3.
  - rewrite HF by (right; right; right; left; reflexivity). exact H4.
  - apply IH. intros x Hx. apply HF. right. right. right. right. exact Hx.
Qed.

Lemma chain_lt h p cs : chain h p cs -> forall x, In x (blocks_of cs) -> x < length h.
Proof.
  induction 1 as [|c next cs H1 H2 H3 H4 HC IH]; intros x Hx; [destruct Hx|].
  unfold blocks_of in Hx. cbn [flat_map cell_blocks app] in Hx.
  destruct Hx as [<-|[<-|[<-|[<-|Hx]]]]; try (eapply holds_lt; eassumption); try (eapply live_lt; eassumption). apply IH. exact Hx.
Qed.

Lemma blocks_app cs cs' : blocks_of (cs ++ cs') = blocks_of cs ++ blocks_of cs'.
Proof. unfold blocks_of. apply flat_map_app. Qed.

Lemma blocks_len cs : length (blocks_of cs) = 4 * length cs.
Proof. induction cs as [|c cs IH]; [reflexivity|]. unfold blocks_of in *. cbn [flat_map length cell_blocks app]. rewrite IH. lia. Qed.

Lemma is_list_len h p cs : is_list h p cs -> length cs <= length h.
Proof.
  intros (HC & HN). assert (L : length (blocks_of cs) <= length (seq 0 (length h))).
  { apply NoDup_incl_length; [exact HN|]. intros x Hx. apply in_seq. pose proof (chain_lt _ _ _ HC x Hx). lia. }
  rewrite seq_length, blocks_len in L. lia.
Qed.

Lemma last_node_ok h cs : forall c p fuel, chain h p (cs ++ [c]) -> length cs < fuel ->
  exists q, p = Some q /\ last_node fuel h q = Ok (c_node c) /\ holds h (c_node c) (BNode (Some (c_arr c)) (Some (c_name c)) None).
Proof.
  induction cs as [|c' cs IH]; intros c p fuel HC HF; (destruct fuel as [|f]; [lia|]); cbn [app] in HC.
  - inversion HC as [|? next ? H1 H2 H3 H4 HC' E1 E2]; subst. inversion HC'; subst. exists (c_node c). split; [reflexivity|].
    split; [|exact H1]. cbn [last_node]. rewrite (get_node_holds _ _ _ _ _ H1). reflexivity.
  - inversion HC as [|? next ? H1 H2 H3 H4 HC' E1 E2]; subst. exists (c_node c'). split; [reflexivity|].
    destruct (IH c next f HC' ltac:(cbn in HF; lia)) as (q & -> & E & HL). split; [|exact HL].
    cbn [last_node]. rewrite (get_node_holds _ _ _ _ _ H1). cbn [rbind]. exact E.
Qed.

Lemma chain_link h h' cs : forall c p n cs2, chain h p (cs ++ [c]) ->
  (forall x, In x (blocks_of (cs ++ [c])) -> x <> c_node c -> nth_error h' x = nth_error h x) ->
  NoDup (blocks_of (cs ++ [c])) ->
  holds h' (c_node c) (BNode (Some (c_arr c)) (Some (c_name c)) (Some n)) -> chain h' (Some n) cs2 ->
  chain h' p (cs ++ c :: cs2).
Proof.
  induction cs as [|c' cs IH]; intros c p n cs2 HC HF HN HL H2; cbn [app] in HC.
  - inversion HC as [|? next ? H1 Ha Hd Hs HC' E1 E2]; subst. cbn [app]. unfold blocks_of in HF, HN. cbn [flat_map cell_blocks app] in HF, HN.
    inversion HN as [|? ? N1 HN']; subst.
    econstructor; [exact HL| | | |exact H2]; unfold live, holds in *.
    + rewrite HF; [exact Ha|right; left; reflexivity|]. intros E. apply N1. rewrite <- E. left. reflexivity.
    + rewrite HF; [exact Hd|right; right; left; reflexivity|]. intros E. apply N1. rewrite <- E. right. left. reflexivity.
    + rewrite HF; [exact Hs|right; right; right; left; reflexivity|]. intros E. apply N1. rewrite <- E. right. right. left. reflexivity.
  - inversion HC as [|? next ? H1 Ha Hd Hs HC' E1 E2]; subst. cbn [app]. cbn [app] in HF, HN.
    assert (IN : In (c_node c) (blocks_of (cs ++ [c]))).
    { rewrite blocks_app. apply in_or_app. right. left. reflexivity. }
    unfold blocks_of in HF, HN. cbn [flat_map cell_blocks app] in HF, HN. fold (blocks_of (cs ++ [c])) in HF, HN.
    inversion HN as [|? ? N1 HN1]; subst. inversion HN1 as [|? ? N2 HN2]; subst.
    inversion HN2 as [|? ? N3 HN3]; subst. inversion HN3 as [|? ? N4 HN4]; subst.
    econstructor; unfold live, holds in *.
    + rewrite HF; [exact H1|left; reflexivity|]. intros E. apply N1. rewrite E. right. right. right. exact IN.
    + rewrite HF; [exact Ha|right; left; reflexivity|]. intros E. apply N2. rewrite E. right. right. exact IN.
    + rewrite HF; [exact Hd|right; right; left; reflexivity|]. intros E. apply N3. rewrite E. right. exact IN.
    + rewrite HF; [exact Hs|right; right; right; left; reflexivity|]. intros E. apply N4. rewrite E. exact IN.
    + eapply IH; [exact HC'| |exact HN4|exact HL|exact H2]. intros x Hx. apply HF. right. right. right. right. exact Hx.
Qed.

(** ** names *)
Lemma vformat_plain s : plain s -> vformat s [] = Ok s.
Proof.
  induction s as [|c s IH]; intros H; [reflexivity|]. cbn [vformat].
  destruct (Ascii.eqb_spec c "%") as [-> |_]; [exfalso; apply H; left; reflexivity|].
  rewrite IH; [reflexivity|]. intros Q. apply H. right. exact Q.
Qed.

Section List.
  Variable alloc : Z -> bool.

  (** the new element, before it is put into the list *)
  Lemma extend_ok oper h p a fmt args str :
    vformat fmt args = Ok str -> length str <= 80 -> alloc 24%Z = true -> alloc (Z.of_nat (length str + 1)) = true ->
    list_extend alloc oper h p (Some a) fmt args =
    oper (h ++ [Some (BNode (Some a) (Some (S (length h))) None); Some (BName str)]) p (length h).
  Proof.
    intros HV HL A1 A2. unfold list_extend. rewrite A1. cbn [negb]. cbn [h_new].
    unfold va_args_filename. rewrite HV. cbn [rbind].
    destruct (Nat.ltb_spec max_filename (length str)) as [Q|_]; [unfold max_filename in Q; lia|].
    rewrite A2. cbn [negb rbind h_new]. f_equal.
    - assert (E : forall (l : heap) x y z, set_nth ((l ++ [x]) ++ [y]) (length l) z = l ++ [z; y]).
      { induction l as [|w l IH]; intros; [reflexivity|]. cbn [app length set_nth]. rewrite IH. reflexivity. }
      rewrite E. rewrite app_length. cbn [length]. repeat f_equal. lia.
  Qed.

  Section Extend.
    Variables (h : heap) (p : ptr) (cs : list cell) (a d : nat) (m : npy) (fmt str : bytes) (args : list Z).
    Hypothesis HL : is_list h p cs.
    Hypothesis Ha : holds h a (BArr m d).
    Hypothesis Hd : live h d.
    Hypothesis Had : a <> d.
    Hypothesis Hna : ~ In a (blocks_of cs).
    Hypothesis Hnd : ~ In d (blocks_of cs).
    Hypothesis HV : vformat fmt args = Ok str.
    Hypothesis HS : length str <= 80.
    Hypothesis A1 : alloc 24%Z = true.
    Hypothesis A2 : alloc (Z.of_nat (length str + 1)) = true.

    Definition new_cell := mk_cell (length h) a d (S (length h)) m str.
    Let h1 : heap := h ++ [Some (BNode (Some a) (Some (S (length h))) None); Some (BName str)].

    Lemma h1_old x : x < length h -> nth_error h1 x = nth_error h x.
    Proof. intros H. unfold h1. apply nth_error_app1. exact H. Qed.
    Lemma h1_node : nth_error h1 (length h) = Some (Some (BNode (Some a) (Some (S (length h))) None)).
    Proof. unfold h1. rewrite nth_error_app2 by lia. rewrite Nat.sub_diag. reflexivity. Qed.
    Lemma h1_name : nth_error h1 (S (length h)) = Some (Some (BName str)).
    Proof. unfold h1. rewrite nth_error_app2 by lia. replace (S (length h) - length h) with 1 by lia. reflexivity. Qed.
    Lemma h1_len : length h1 = S (S (length h)).
    Proof. unfold h1. rewrite app_length. cbn [length]. lia. Qed.

    Lemma new_blocks_nodup1 : NoDup (blocks_of cs ++ blocks_of [new_cell]).
    Proof.
      destruct HL as (HC & HN). pose proof (chain_lt _ _ _ HC) as LT.
      pose proof (holds_lt _ _ _ Ha). pose proof (live_lt _ _ Hd).
      assert (N4 : NoDup (blocks_of [new_cell])).
      { unfold blocks_of, new_cell. cbn. repeat constructor; cbn; intros Q; intuition lia. }
      induction (blocks_of cs) as [|x l IH]; [exact N4|]. cbn [app]. inversion HN; subst. constructor.
      - intros Q. apply in_app_or in Q. destruct Q as [Q|Q]; [contradiction|].
        pose proof (LT x (or_introl eq_refl)). unfold blocks_of, new_cell in Q. cbn in Q.
        destruct Q as [Q|[Q|[Q|[Q|[]]]]]; try lia.
        + apply Hna. left. symmetry. exact Q.
        + apply Hnd. left. symmetry. exact Q.
      - apply IH; try assumption.
        + intros Q. apply Hna. right. exact Q.
        + intros Q. apply Hnd. right. exact Q.
        + intros y Hy. apply LT. right. exact Hy.
    Qed.

    Theorem append_list : exists h' p', list_append alloc h p (Some a) fmt args = Ok (h', p')
      /\ is_list h' p' (cs ++ [new_cell]) /\ length h' = 2 + length h
      /\ (forall x, x < length h -> ~ In x (map c_node cs) -> nth_error h' x = nth_error h x).
    Proof.
      pose proof new_blocks_nodup1 as NB.
      destruct HL as (HC & HN). pose proof (chain_lt _ _ _ HC) as LT. pose proof (is_list_len _ _ _ HL) as LL.
      pose proof (holds_lt _ _ _ Ha) as La. pose proof (live_lt _ _ Hd) as Ld.
      unfold list_append. rewrite (extend_ok _ _ _ _ _ _ _ HV HS A1 A2). fold h1.
      assert (C1 : chain h1 p cs). { eapply chain_frame; [exact HC|]. intros x Hx. apply h1_old. apply LT. exact Hx. }
      unfold list_append_node. destruct cs as [|c0 cs0 _] using rev_ind.
      - inversion HC; subst. unfold set_next. rewrite (get_node_holds _ _ _ _ _ h1_node). cbn [rbind].
        assert (ID : set_nth h1 (length h) (Some (BNode (Some a) (Some (S (length h))) None)) = h1).
        { apply set_nth_id. exact h1_node. }
        rewrite ID. exists h1, (Some (length h)). split; [reflexivity|]. split.
        + split; [|exact NB]. cbn [app]. apply (chain_cons h1 new_cell None []); unfold live, holds, new_cell; cbn [c_node c_arr c_data c_name c_m c_str].
          * exact h1_node.
          * rewrite h1_old by exact La. exact Ha.
          * rewrite h1_old by exact Ld. exact Hd.
          * exact h1_name.
          * constructor.
        + split; [exact h1_len|]. intros x Hx _. apply h1_old. exact Hx.
      - assert (FU : length cs0 < S (length h1)). { rewrite h1_len. rewrite app_length in LL. lia. }
        destruct (last_node_ok h1 cs0 c0 p (S (length h1)) C1 FU) as (q & -> & EL & HLst).
        rewrite EL. cbn [rbind]. unfold set_next. rewrite (get_node_holds _ _ _ _ _ HLst). cbn [rbind].
        set (h' := set_nth h1 (c_node c0) (Some (BNode (Some (c_arr c0)) (Some (c_name c0)) (Some (length h))))).
        assert (INc : In (c_node c0) (blocks_of (cs0 ++ [c0]))). { rewrite blocks_app. apply in_or_app. right. left. reflexivity. }
        pose proof (LT _ INc) as LTc.
        assert (OT : forall x, x <> c_node c0 -> nth_error h' x = nth_error h1 x).
        { intros x Hx. unfold h'. apply set_other. congruence. }
        exists h', (Some q). split; [reflexivity|]. split.
        + split; [|rewrite blocks_app; exact NB].
          rewrite <- app_assoc. cbn [app]. eapply (chain_link h1 h' cs0 c0 (Some q) (length h) [new_cell]).
          * exact C1.
          * intros x _ Hx. apply OT. exact Hx.
          * exact HN.
          * unfold holds, h'. apply set_same. rewrite h1_len. lia.
          * apply (chain_cons h' new_cell None []); unfold live, holds, new_cell; cbn [c_node c_arr c_data c_name c_m c_str].
            -- rewrite OT by lia. exact h1_node.
            -- rewrite OT; [rewrite h1_old by exact La; exact Ha|]. intros E. apply Hna. rewrite E. exact INc.
            -- rewrite OT; [rewrite h1_old by exact Ld; exact Hd|]. intros E. apply Hnd. rewrite E. exact INc.
            -- rewrite OT by lia. exact h1_name.
            -- constructor.
        + split; [unfold h'; rewrite length_set_nth; exact h1_len|].
          intros x Hx NI. rewrite OT; [apply h1_old; exact Hx|]. intros E. apply NI. rewrite E, map_app. apply in_or_app. right. left. reflexivity.
    Qed.

    Theorem prepend_list : exists h', list_prepend alloc h p (Some a) fmt args = Ok (h', Some (length h))
      /\ is_list h' (Some (length h)) (new_cell :: cs) /\ length h' = 2 + length h
      /\ (forall x, x < length h -> nth_error h' x = nth_error h x).
    Proof.
      destruct HL as (HC & HN). pose proof (chain_lt _ _ _ HC) as LT.
      pose proof (holds_lt _ _ _ Ha) as La. pose proof (live_lt _ _ Hd) as Ld.
      unfold list_prepend. rewrite (extend_ok _ _ _ _ _ _ _ HV HS A1 A2). fold h1.
      unfold list_prepend_node, set_next. rewrite (get_node_holds _ _ _ _ _ h1_node). cbn [rbind].
      set (h' := set_nth h1 (length h) (Some (BNode (Some a) (Some (S (length h))) p))).
      assert (OT : forall x, x <> length h -> nth_error h' x = nth_error h1 x).
      { intros x Hx. unfold h'. apply set_other. congruence. }
      exists h'. split; [reflexivity|]. split.
      - split.
        + apply (chain_cons h' new_cell p cs); unfold live, holds, new_cell; cbn [c_node c_arr c_data c_name c_m c_str].
          * unfold h'. apply set_same. rewrite h1_len. lia.
          * rewrite OT by lia. rewrite h1_old by exact La. exact Ha.
          * rewrite OT by lia. rewrite h1_old by exact Ld. exact Hd.
          * rewrite OT by lia. exact h1_name.
          * eapply chain_frame; [exact HC|]. intros x Hx. pose proof (LT x Hx). rewrite OT by lia. apply h1_old. lia.
        + change (blocks_of (new_cell :: cs)) with (blocks_of [new_cell] ++ blocks_of cs).
          eapply Permutation_NoDup; [apply Permutation_app_comm|]. exact new_blocks_nodup1.
      - split; [unfold h'; rewrite length_set_nth; exact h1_len|]. intros x Hx. rewrite OT by lia. apply h1_old. exact Hx.
    Qed.
  End Extend.

  (** ** length *)
  Lemma length_chain h p cs : chain h p cs -> forall fuel n, length cs < fuel -> (0 <= n)%Z -> (n + Z.of_nat (length cs) < size_max1)%Z ->
    list_length_from fuel h p n = Ok (n + Z.of_nat (length cs))%Z.
  Proof.
    induction 1 as [|c next cs H1 H2 H3 H4 HC IH]; intros fuel n HF Hn HB; (destruct fuel as [|f]; [lia|]); cbn [list_length_from].
    - cbn [length]. f_equal. lia.
    - rewrite (get_node_holds _ _ _ _ _ H1). cbn [rbind snd]. cbn [length] in *. rewrite to_size_small by lia.
      rewrite IH by lia. f_equal. lia.
  Qed.

  (** ** freeing *)
  Lemma free_chain cs : forall h p fuel, is_list h p cs -> length cs < fuel ->
    exists h', list_free fuel h p = Ok h' /\ length h' = length h
      /\ (forall x, In x (blocks_of cs) -> dead h' x)
      /\ (forall x, ~ In x (blocks_of cs) -> nth_error h' x = nth_error h x).
  Proof.
    induction cs as [|c cs IH]; intros h p fuel (HC & HN) HF; (destruct fuel as [|f]; [lia|]); cbn [list_free].
    - inversion HC; subst. exists h. repeat split. intros x [].
    - inversion HC as [|? next ? H1 Ha Hd Hs HC' E1 E2]; subst. pose proof (chain_lt _ _ _ HC') as LT.
      rewrite (get_node_holds _ _ _ _ _ H1). cbn [rbind].
      unfold blocks_of in HN. cbn [flat_map cell_blocks app] in HN. fold (blocks_of cs) in HN.
      inversion HN as [|? ? N1 HN1]; subst. inversion HN1 as [|? ? N2 HN2]; subst.
      inversion HN2 as [|? ? N3 HN3]; subst. inversion HN3 as [|? ? N4 HN4]; subst.
      cbn [In] in N1, N2, N3.
      assert (D1 : c_node c <> c_arr c) by (intros E; apply N1; left; congruence).
      assert (D2 : c_node c <> c_data c) by (intros E; apply N1; right; left; congruence).
      assert (D3 : c_node c <> c_name c) by (intros E; apply N1; right; right; left; congruence).
      assert (D4 : c_arr c <> c_data c) by (intros E; apply N2; left; congruence).
      assert (D5 : c_arr c <> c_name c) by (intros E; apply N2; right; left; congruence).
      assert (D6 : c_data c <> c_name c) by (intros E; apply N3; left; congruence).
      assert (F1 : ~ In (c_node c) (blocks_of cs)) by (intros Q; apply N1; right; right; right; exact Q).
      assert (F2 : ~ In (c_arr c) (blocks_of cs)) by (intros Q; apply N2; right; right; exact Q).
      assert (F3 : ~ In (c_data c) (blocks_of cs)) by (intros Q; apply N3; right; exact Q).
      pose proof (holds_lt _ _ _ H1) as L1. pose proof (holds_lt _ _ _ Ha) as L2. pose proof (live_lt _ _ Hd) as L3. pose proof (holds_lt _ _ _ Hs) as L4.
      unfold array_free. rewrite (get_arr_holds _ _ _ _ Ha). cbn [rbind snd]. rewrite (live_free _ _ Hd). cbn [rbind].
      set (ha := set_nth h (c_data c) None).
      assert (Ha' : holds ha (c_arr c) (BArr (c_m c) (c_data c))) by (unfold holds, ha; rewrite set_other by congruence; exact Ha).
      rewrite (h_free_holds _ _ _ Ha'). cbn [rbind]. set (hb := set_nth ha (c_arr c) None).
      assert (Hs' : holds hb (c_name c) (BName (c_str c))) by (unfold holds, hb, ha; rewrite !set_other by congruence; exact Hs).
      rewrite (h_free_holds _ _ _ Hs'). cbn [rbind]. set (hc := set_nth hb (c_name c) None).
      assert (OT : forall x, x <> c_data c -> x <> c_arr c -> x <> c_name c -> nth_error hc x = nth_error h x).
      { intros x X1 X2 X3. unfold hc, hb, ha. rewrite !set_other by congruence. reflexivity. }
      assert (LC : length hc = length h) by (unfold hc, hb, ha; rewrite !length_set_nth; reflexivity).
      assert (DD : dead hc (c_data c) /\ dead hc (c_arr c) /\ dead hc (c_name c)).
      { unfold dead, hc. split; [|split].
        - rewrite set_other by congruence. unfold hb. rewrite set_other by congruence. unfold ha. apply set_same. exact L3.
        - rewrite set_other by congruence. unfold hb. apply set_same. unfold ha. rewrite length_set_nth. exact L2.
        - apply set_same. unfold hb, ha. rewrite !length_set_nth. exact L4. }
      assert (IL : is_list hc next cs).
      { split; [|exact HN4]. eapply chain_frame; [exact HC'|]. intros x Hx. apply OT; intros ->; contradiction. }
      destruct (IH hc next f IL ltac:(cbn in HF; lia)) as (hd & ED & LD & DE & SA).
      match goal with |- context[rbind ?x _] => assert (EN : x = Ok hd) end.
      { destruct next; [exact ED|]. destruct f; [cbn in HF; lia|]. exact ED. }
      rewrite EN. cbn [rbind].
      assert (H1' : holds hd (c_node c) (BNode (Some (c_arr c)) (Some (c_name c)) next)).
      { unfold holds. rewrite SA by exact F1. rewrite OT by congruence. exact H1. }
      rewrite (h_free_holds _ _ _ H1'). eexists. split; [reflexivity|]. split; [rewrite length_set_nth; lia|].
      unfold blocks_of. cbn [flat_map cell_blocks app]. fold (blocks_of cs). split.
      + intros x Hx. destruct (Nat.eq_dec x (c_node c)) as [-> |NE]; [unfold dead; apply set_same; lia|].
        unfold dead. rewrite set_other by congruence. destruct DD as (Q1 & Q2 & Q3). unfold dead in *.
        destruct Hx as [Q|[<-|[<-|[<-|Q]]]]; [congruence| | | |].
        * rewrite SA by exact F2. exact Q2.
        * rewrite SA by exact F3. exact Q1.
        * rewrite SA by exact N4. exact Q3.
        * apply DE. exact Q.
      + intros x Hx. cbn [In] in Hx. rewrite set_other by (intros E; apply Hx; left; exact E).
        rewrite SA by (intros Q; apply Hx; right; right; right; right; exact Q).
        apply OT; intros ->; apply Hx; [right; right; left|right; left|right; right; right; left]; reflexivity.
  Qed.

  (** ** saving *)
  Variable utf8 : bytes -> bool.
  Definition add_member (ar : list member) (name content : bytes) : list member :=
    match zip_file_add utf8 ar name content with Some ar' => ar' | None => ar end.
  Definition npy_bytes (m : npy) : bytes := npy_file "000" (header_text m (shape_bytes (stored_dims m))) (np_data m).

  Lemma add_member_len ar name content : length (add_member ar name content) <= S (length ar).
  Proof. unfold add_member, zip_file_add. destruct (_ || _); [lia|]. rewrite app_length. cbn. lia. Qed.

  Lemma get_header_storable m : storable m ->
    exists hd, npy_get_header m = Ok hd /\ npy_datasize m = Ok (Z.of_nat (length (np_data m))) /\ hd ++ np_data m = npy_bytes m
      /\ length hd = 128.
  Proof.
    intros HS. pose proof (storable_positive m HS) as HP. pose proof (dict_len m HS) as DL. pose proof (product_pos _ HP) as PP.
    destruct HS as (A & B & C & D & E & F & G).
    destruct (get_header_eq m (shape_bytes (stored_dims m))) as (H1 & H2); [apply print_shape_ok; [lia|]|exact DL|].
    { eapply Forall_impl; [|exact C]. cbn. lia. }
    eexists. split; [exact H1|]. split.
    { rewrite datasize_ok by (try assumption; fold (stored_dims m); unfold size_max1; lia). fold (stored_dims m). rewrite F. reflexivity. }
    split; [unfold npy_bytes, npy_file; rewrite H2, <- !app_assoc; reflexivity|].
    rewrite !app_length, H2. reflexivity.
  Qed.

  Lemma save_chain h p cs comp : chain h p cs -> Forall (fun c => storable (c_m c)) cs ->
    Forall (fun c => alloc (Z.of_nat (length (npy_bytes (c_m c)))) = true) cs ->
    forall fuel ar n, length cs < fuel -> length ar <= n ->
    save_loop alloc utf8 fuel h p comp ar n =
      Ok (h, fold_left (fun ar c => add_member ar (c_str c) (npy_bytes (c_m c))) cs ar, n + length cs).
  Proof.
    induction 1 as [|c next cs H1 H2 H3 H4 HC IH]; intros HS HA fuel ar n HF HL; (destruct fuel as [|f]; [lia|]); cbn [save_loop].
    - cbn. rewrite Nat.add_0_r. reflexivity.
    - unfold zip_set_compression. destruct (nth_error ar n) eqn:En.
      { assert (n < length ar) by (apply nth_error_Some; congruence). lia. }
      rewrite (get_node_holds _ _ _ _ _ H1). cbn [rbind]. rewrite (get_name_holds _ _ _ H4). cbn [rbind].
      rewrite (get_arr_holds _ _ _ _ H2). cbn [rbind fst].
      destruct (get_header_storable (c_m c) (Forall_inv HS)) as (hd & E1 & E2 & E3 & E4).
      rewrite E1. cbn [rbind]. rewrite E2. cbn [rbind].
      pose proof (Forall_inv HA) as A1. cbn beta in A1. rewrite <- E3, app_length, Nat2Z.inj_add in A1. rewrite A1. cbn [negb].
      rewrite Z.leb_refl. cbn [negb]. rewrite Nat2Z.id, firstn_all.
      replace (hd ++ np_data (c_m c)) with (npy_bytes (c_m c)) by (symmetry; exact E3).
      fold (add_member ar (c_str c) (npy_bytes (c_m c))).
      rewrite IH.
      + cbn [fold_left length]. f_equal. f_equal. lia.
      + exact (Forall_inv_tail HS).
      + exact (Forall_inv_tail HA).
      + cbn in HF. lia.
      + pose proof (add_member_len ar (c_str c) (npy_bytes (c_m c))). lia.
  Qed.

  Lemma add_all cs : forall ar, Forall (fun c => utf8 (c_str c) = true) cs ->
    NoDup (map mb_name ar ++ names_of cs) ->
    fold_left (fun ar c => add_member ar (c_str c) (npy_bytes (c_m c))) cs ar
    = ar ++ map (fun c => mk_member (c_str c) (npy_bytes (c_m c)) cm_default) cs.
  Proof.
    induction cs as [|c cs IH]; intros ar HU HN; [rewrite app_nil_r; reflexivity|]. cbn [fold_left map].
    assert (AD : add_member ar (c_str c) (npy_bytes (c_m c)) = ar ++ [mk_member (c_str c) (npy_bytes (c_m c)) cm_default]).
    { unfold add_member, zip_file_add. rewrite (Forall_inv HU). cbn [negb orb].
      destruct (existsb (fun m => bytes_eqb (mb_name m) (c_str c)) ar) eqn:EX; [|reflexivity]. exfalso.
      apply existsb_exists in EX. destruct EX as (m & IM & EM). unfold bytes_eqb in EM.
      destruct (list_eq_dec ascii_dec (mb_name m) (c_str c)) as [EQ|]; [|discriminate].
      unfold names_of in HN. cbn [map] in HN. apply NoDup_remove_2 in HN. apply HN. apply in_or_app. left.
      rewrite <- EQ. apply in_map. exact IM. }
    rewrite AD, IH.
    - rewrite <- app_assoc. reflexivity.
    - exact (Forall_inv_tail HU).
    - rewrite map_app. cbn [map mb_name]. rewrite <- app_assoc. exact HN.
  Qed.

  (** ** loading *)
  Definition reloaded (m : npy) : npy :=
    mk_npy (np_data m) (stored_dims m ++ repeat 0%Z (8 - length (stored_dims m))) (length (stored_dims m))
           (guess_endianness m) (np_type m) (np_elem m) (np_fortran m) false.

  Lemma read_storable m : storable m -> alloc 104%Z = true -> alloc (Z.of_nat (length (np_data m))) = true ->
    read_matrix alloc false (npy_bytes m) = Ok (Some (reloaded m)).
  Proof.
    intros HS A1 A2. pose proof (storable_positive m HS) as HP. pose proof (product_pos _ HP) as PP.
    pose proof (stored_len m HS) as SL. destruct (save_eq m HS) as (E1 & E2).
    pose proof (header_describes m HS) as HD. destruct HS as (A & B & C & D & E & F & G).
    unfold npy_bytes. rewrite (read_body alloc false _ _ _ _ _ _ _ _ HD).
    - unfold sizeof_npy. rewrite A1. cbn [negb]. cbv zeta.
      rewrite count_ok by (try exact HP; unfold size_max1; nia). rewrite Z.mul_1_l.
      rewrite to_size_small by (unfold size_max1; nia). rewrite <- F, A2. cbn [negb]. rewrite Z.leb_refl.
      rewrite Nat2Z.id, firstn_all. reflexivity.
    - nia.
    - lia.
    - eapply Forall_impl; [|exact C]. cbn. lia.
    - rewrite E2. cbn. lia.
    - rewrite E2. cbn. lia.
  Qed.

  Lemma same_reloaded m : storable m -> same_array m (reloaded m).
  Proof.
    intros HS. pose proof (stored_len m HS) as SL. unfold same_array, reloaded. cbn [np_data np_ndim np_type np_elem np_fortran].
    split; [reflexivity|]. split; [assumption|]. split; [|do 3 (split; [reflexivity|]); apply guess_byte_order].
    unfold stored_dims at 1. cbn [np_ndim np_shape].
    rewrite firstn_app, firstn_all, Nat.sub_diag. cbn [firstn]. apply app_nil_r.
  Qed.

  Lemma load_members ms : forall h p cs,
    is_list h p cs ->
    Forall (fun x => read_matrix alloc false (mb_content (fst x)) = Ok (Some (snd x)) /\ plain (mb_name (fst x)) /\ length (mb_name (fst x)) <= 80
              /\ alloc (Z.of_nat (length (mb_name (fst x)) + 1)) = true) ms ->
    alloc 24%Z = true ->
    exists h' p' cs', load_loop alloc (map fst ms) h p = Ok (h', p')
      /\ is_list h' p' (cs ++ cs') /\ names_of cs' = map (fun x => mb_name (fst x)) ms /\ arrays_of cs' = map snd ms
      /\ (forall x, x < length h -> ~ In x (map c_node cs) -> nth_error h' x = nth_error h x)
      /\ length h' = length h + 4 * length ms
      /\ (forall x, In x (blocks_of cs') <-> length h <= x < length h').
  Proof.
    induction ms as [|[mb m] ms IH]; intros h p cs HL HF A2; cbn [map load_loop].
    - exists h, p, []. rewrite app_nil_r. repeat split; try apply HL; try reflexivity; cbn in *; lia.
    - pose proof (Forall_inv HF) as (RD & HP & HL80 & A3). cbn [fst snd] in *.
      rewrite RD. cbn [rbind h_new].
      pose proof HL as (HC & HN). pose proof (chain_lt _ _ _ HC) as LT.
      set (h2 := (h ++ [Some BData]) ++ [Some (BArr m (length h))]).
      assert (O2 : forall x, x < length h -> nth_error h2 x = nth_error h x).
      { intros x Hx. unfold h2. rewrite app_old by (rewrite app_length; cbn; lia). apply app_old. exact Hx. }
      assert (E2 : length (h ++ [Some BData]) = S (length h)) by (rewrite app_length; cbn; lia).
      destruct (append_list h2 p cs (length (h ++ [Some BData])) (length h) m (mb_name mb) (mb_name mb) []) as (h3 & p3 & EA & HL3 & LN3 & O3).
      + split; [|exact HN]. eapply chain_frame; [exact HC|]. intros x Hx. apply O2. apply LT. exact Hx.
      + unfold holds, h2. apply app_new.
      + exists BData; unfold holds, h2. rewrite app_old by lia. apply app_new.
      + lia.
      + intros Q. apply LT in Q. lia.
      + intros Q. apply LT in Q. lia.
      + apply vformat_plain. exact HP.
      + exact HL80.
      + exact A2.
      + exact A3.
      + fold h2. rewrite EA. cbn [rbind fst snd].
        destruct (IH h3 p3 _ HL3 (Forall_inv_tail HF) A2) as (h4 & p4 & cs4 & E4 & HL4 & NA & AR & O4 & LN4 & B4).
        exists h4, p4, (new_cell h2 (length (h ++ [Some BData])) (length h) m (mb_name mb) :: cs4).
        split; [exact E4|]. split; [rewrite <- app_assoc in HL4; exact HL4|].
        split; [unfold names_of in *; cbn [map c_str new_cell]; rewrite NA; reflexivity|].
        split; [unfold arrays_of in *; cbn [map c_m new_cell]; rewrite AR; reflexivity|].
        assert (LH2 : length h2 = S (S (length h))) by (unfold h2; rewrite app_length, E2; cbn; lia).
        split; [|split; [cbn [length]; lia|]].
        2:{ intros x. unfold blocks_of. cbn [flat_map]. fold (blocks_of cs4). rewrite in_app_iff, B4.
            unfold new_cell. cbn [cell_blocks c_node c_arr c_data c_name In]. rewrite E2, LH2. lia. }
        intros x Hx NI. rewrite O4.
        * rewrite O3 by (try lia; exact NI). apply O2. exact Hx.
        * lia.
        * rewrite map_app. intros Q. apply in_app_or in Q. destruct Q as [Q|[Q|[]]]; [exact (NI Q)|].
          unfold new_cell in Q. cbn [c_node] in Q. lia.
  Qed.

  Lemma load_chain ms : forall h p cs,
    is_list h p cs ->
    Forall (fun nm => storable (snd nm) /\ plain (fst nm) /\ length (fst nm) <= 80
              /\ alloc (Z.of_nat (length (fst nm) + 1)) = true /\ alloc (Z.of_nat (length (np_data (snd nm)))) = true) ms ->
    alloc 104%Z = true -> alloc 24%Z = true ->
    exists h' p' cs', load_loop alloc (map (fun nm => mk_member (fst nm) (npy_bytes (snd nm)) cm_default) ms) h p = Ok (h', p')
      /\ is_list h' p' (cs ++ cs') /\ names_of cs' = map fst ms /\ arrays_of cs' = map (fun nm => reloaded (snd nm)) ms
      /\ (forall x, x < length h -> ~ In x (map c_node cs) -> nth_error h' x = nth_error h x)
      /\ length h' = length h + 4 * length ms
      /\ (forall x, In x (blocks_of cs') <-> length h <= x < length h').
  Proof.
    intros h p cs HL HF A1 A2.
    destruct (load_members (map (fun nm => (mk_member (fst nm) (npy_bytes (snd nm)) cm_default, reloaded (snd nm))) ms) h p cs HL) as (h' & p' & cs' & E & IL & NA & AR & O & LN & B).
    - apply Forall_map. eapply Forall_impl; [|exact HF]. cbn [fst snd mb_name mb_content]. intros [name m]. cbn [fst snd].
      intros (HS & HP & H80 & A3 & A4). split; [apply read_storable; assumption|]. repeat split; assumption.
    - exact A2.
    - rewrite map_map in E. rewrite !map_map in NA. rewrite map_map in AR. rewrite map_length in LN.
      exists h', p', cs'. exact (conj E (conj IL (conj NA (conj AR (conj O (conj LN B)))))).
  Qed.
End List.
