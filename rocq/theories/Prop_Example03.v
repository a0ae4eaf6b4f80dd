(** Prop_Example03.v -- C107: the memory of the third example program *)
From Coq Require Import ZArith Bool String Ascii List Lia.
From Verif Require Import Base BaseProofs Activation Logger Npy NpyList SpecList ListProofs Registry SpecRegistry Create SpecCreate CreateProofs
  Prop_Create Loss Names Evaluate OptCreate SpecOptCreate Prop_OptCreate CbInit Prop_CbInit Example03.
Import ListNotations.
Local Open Scope nat_scope.

Lemma is_net_frame h h' sizes nn : is_net h sizes nn -> (forall x, In x (net_blocks nn) -> nth_error h' x = nth_error h x) -> is_net h' sizes nn.
Proof.
  intros (F & L1 & L2 & ND) S. unfold net_blocks in *. split; [|split; [|split; [|exact ND]]].
  - assert (S' : forall x, In x (flat_map layer_blocks (cn_layers nn)) -> nth_error h' x = nth_error h x) by (intros x Hx; apply S; right; right; exact Hx).
    clear -F S'. induction F as [|s l ss ls H F IH]; constructor.
    + destruct H as (H1 & H2 & (a & la & Ea & Ha & Na) & (b & lb & Eb & Hb & Nb)). cbn [flat_map] in S'. unfold layer_blocks in S' at 1. rewrite Ea, Eb in S'.
      split; [exact H1|]. split; [exact H2|]. split; [exists a, la; split; [exact Ea|split; [unfold holds in *; rewrite S'; [exact Ha|cbn; tauto]|exact Na]]|].
      exists b, lb. split; [exact Eb|split; [unfold holds in *; rewrite S'; [exact Hb|cbn; tauto]|exact Nb]].
    + apply IH. intros x Hx. apply S'. cbn [flat_map]. apply in_or_app. right. exact Hx.
  - eapply live_same; [|exact L1]. apply S. left. reflexivity.
  - eapply live_same; [|exact L2]. apply S. right. left. reflexivity.
Qed.
Lemma no_at_short lib s : ~ In "@"%char s -> short_symbol lib s.
Proof. intros H sy li (E & _) _. exfalso. apply H. rewrite E. apply in_or_app. right. left. reflexivity. Qed.
Lemma live_app h b t : live (h ++ Some b :: t) (length h).
Proof. exists b. unfold holds. rewrite nth_error_app2, Nat.sub_diag by lia. reflexivity. Qed.

Section Memory.
  Variable mem : nat -> Z -> bool.
  Variable lib_opens : bytes -> bool.
  Variable dlsym : bytes -> bytes -> option (option nat).
  Hypothesis HM : forall k s, mem k s = true.

  (** with the four files and enough memory the program frees every block it took, and touches no other *)
  Theorem example_03_frees : forall h st x y vx vy n_in n file log_ok,
    (1 <= n_in)%Z -> ((n_in + 1) * 256 < 2147483648)%Z -> (1 <= n)%Z ->
    exists h', main_03 mem lib_opens dlsym h st (Some x) (Some y) (Some vx) (Some vy) n_in n file log_ok = Ok (h', true)
      /\ (forall b, b < length h -> nth_error h' b = nth_error h b) /\ (forall b, length h <= b -> ~ live h' b).
  Proof.
    intros h st x y vx vy n_in n file log_ok N1 N2 N3. unfold main_03, data_array. rewrite !malloc_ok by apply HM.
    set (h4 := (((h ++ _) ++ _) ++ _) ++ _). set (q1 := length h). set (q2 := length (h ++ _)). set (q3 := length ((h ++ _) ++ _)). set (q4 := length (((h ++ _) ++ _) ++ _)).
    assert (E2 : q2 = 1 + q1) by (unfold q2, q1; rewrite app_length; cbn; lia). assert (E3 : q3 = 2 + q1) by (unfold q3, q1; rewrite !app_length; cbn; lia).
    assert (E4 : q4 = 3 + q1) by (unfold q4, q1; rewrite !app_length; cbn; lia). assert (L4 : length h4 = 4 + q1) by (unfold h4, q1; rewrite !app_length; cbn; lia).
    assert (S4 : forall b, b < q1 -> nth_error h4 b = nth_error h b).
    { intros b Hb. unfold h4. rewrite <- !app_assoc. apply nth_error_app1. exact Hb. }
    assert (V4 : forall b, q1 <= b < 4 + q1 -> live h4 b).
    { intros b Hb. unfold live, holds, h4. rewrite <- !app_assoc. rewrite nth_error_app2 by (unfold q1 in Hb; lia).
      destruct (b - length h) as [|[|[|[|k]]]] eqn:Q; [eexists; reflexivity..|unfold q1 in Hb; lia]. }
    clearbody h4 q2 q3 q4. subst q2 q3 q4.
    assert (FIT : sizes_fit [n_in; 256; 128; 10]%Z) by (split; repeat constructor; cbn; lia).
    destruct (create_network mem lib_opens dlsym h4 st 3 [n_in; 256; 128; 10]%Z
      [Some (list_ascii_of_string "relu"); Some (list_ascii_of_string "relu"); Some (list_ascii_of_string "softmax")] ltac:(lia) eq_refl FIT (le_n 3))
      as (h5 & st5 & nn & C & IN & _ & _ & B5 & S5 & _).
    { apply Forall_forall. intros o Ho s ->. cbn [In] in Ho. apply no_at_short.
      destruct Ho as [Q|[Q|[Q|[]]]]; injection Q as <-; cbn; intros Q; repeat (destruct Q as [Q|Q]; [discriminate|]); exact Q. }
    { exact HM. }
    match type of C with ?l = _ => match goal with |- context [create mem lib_opens dlsym h4 st ?k ?a ?b] => change (create mem lib_opens dlsym h4 st k a b) with l end end. rewrite C. cbn [rbind]. change (get_loss_func "categorical_crossentropy") with (Some CCE). cbv iota.
    assert (G5 : length h4 <= length h5) by (pose proof (proj1 (B5 (cn_self nn)) (or_introl eq_refl)); lia).
    assert (NO : net_of h5 [n_in; 256; 128; 10]%Z nn (parameters (steps [n_in; 256; 128; 10]%Z))).
    { split; [exact IN|]. split; [repeat constructor; cbn; lia|]. split; [reflexivity|]. cbn. lia. }
    match goal with |- context [optimizer_new mem K_Adam h5 statics0 _ _ ?c] =>
      destruct (optimizer_new_ok mem K_Adam h5 statics0 h5 _ nn _ CCE c NO ltac:(cbn; lia) HM) as (h6 & st6 & o & EO & (I1 & I2 & I3 & I4 & I5) & _ & _ & B6 & S6) end.
    rewrite EO. cbn [rbind].
    assert (G6 : length h5 <= length h6) by (pose proof (proj1 (B6 (ro_self o)) (or_introl eq_refl)); lia).
    unfold log_new, callback_new. rewrite malloc_ok by apply HM. change (logger_new (lc_epoch (lg_settings [])) (lc_filename (lg_settings [])) file log_ok) with (Ok (mk_logger 0 false)). cbn [rbind option_map fst].
    set (h7 := h6 ++ [new_mem 40]). assert (L7 : length h7 = 1 + length h6) by (unfold h7; rewrite app_length; cbn; lia).
    assert (S7 : forall b, b < length h6 -> nth_error h7 b = nth_error h6 b) by (intros b Hb; apply nth_error_app1; exact Hb).
    assert (V7 : live h7 (length h6)) by apply live_app. clearbody h7.
    cbn [epochs_memory]. unfold prepare_pivot at 1. destruct (Z.eqb_spec n 0); [lia|]. rewrite malloc_ok by apply HM. rewrite I4. cbn [rbind ro_pivot].
    set (h8 := h7 ++ [new_mem (n * 4)]). assert (L8 : length h8 = 1 + length h7) by (unfold h8; rewrite app_length; cbn; lia).
    assert (S8 : forall b, b < length h7 -> nth_error h8 b = nth_error h7 b) by (intros b Hb; apply nth_error_app1; exact Hb).
    assert (V8 : live h8 (length h7)) by apply live_app. clearbody h8.
    destruct V8 as (b8 & V8). rewrite (h_get_holds _ _ _ V8). cbn [rbind]. unfold prepare_pivot. rewrite Z.eqb_refl. cbn [rbind ro_pivot]. rewrite (h_get_holds _ _ _ V8). cbn [rbind].
    set (o' := mk_ropt _ _ _ _ _ _ _).
    assert (OB : forall b, In b (opt_blocks o') <-> In b (opt_blocks o) \/ b = length h7).
    { intros b. unfold opt_blocks, o'. cbn [ro_self ro_arrays ro_pivot]. rewrite I4, app_nil_r. cbn [In]. rewrite in_app_iff. cbn [In]. intuition congruence. }
    (* the end *)
    unfold clean_up_03.
    assert (IN8 : is_net h8 [n_in; 256; 128; 10]%Z nn).
    { apply (is_net_frame h5); [exact IN|]. intros b Hb. apply B5 in Hb. rewrite S8, S7, S6 by lia. reflexivity. }
    destruct (free_network h8 _ nn IN8) as (h9 & E9 & D9 & S9). rewrite E9. cbn [rbind].
    destruct (optimizer_free_all h9 o') as (h10 & E10 & D10 & S10).
    { intros b Hb. apply OB in Hb. assert (NB : ~ In b (net_blocks nn)) by (rewrite B5; destruct Hb as [Hb| -> ]; [apply B6 in Hb|]; lia).
      apply (live_same h8); [apply S9; exact NB|]. destruct Hb as [Hb| -> ]; [|exists b8; exact V8].
      apply (live_same h6); [apply B6 in Hb; rewrite S8, S7 by lia; reflexivity|].
      unfold opt_blocks in Hb. rewrite I4, app_nil_r in Hb. destruct Hb as [<-|Hb]; [exact I3|]. rewrite Forall_forall in I2. destruct (I2 b Hb) as (bs & Q & _). exists (BMem bs). exact Q. }
    { unfold opt_blocks, o' in *. cbn [ro_self ro_arrays ro_pivot]. rewrite I4, app_nil_r in I5. inversion I5 as [|? ? Q1 Q2]; subst.
      assert (NI : forall b, In b (ro_self o :: ro_arrays o) -> b <> length h7) by (intros b Hb; rewrite I4, app_nil_r in B6; apply B6 in Hb; lia).
      constructor; [rewrite in_app_iff; intros [Q|[Q|[]]]; [contradiction|exact (NI _ (or_introl eq_refl) (eq_sym Q))]|].
      apply nodup_app. split; [exact Q2|]. split; [constructor; [intros []|constructor]|]. intros b Hb [<-|[]]. exact (NI _ (or_intror Hb) eq_refl). }
    rewrite E10. cbn [rbind].
    assert (NN : forall b, b < 4 + q1 -> ~ In b (net_blocks nn) /\ ~ In b (opt_blocks o')).
    { intros b Hb. split; [rewrite B5; lia|]. rewrite OB, B6. lia. }
    assert (NC : ~ In (length h6) (net_blocks nn) /\ ~ In (length h6) (opt_blocks o')) by (rewrite OB, B5, B6; lia).
    assert (VC : live h10 (length h6)).
    { apply (live_same h7); [|exact V7]. rewrite S10, S9, S8 by (try apply NC; lia). reflexivity. }
    unfold callback_free. rewrite (live_free _ _ VC). cbn [rbind]. set (h11 := set_nth h10 (length h6) None).
    assert (OLD : forall b, b < 4 + q1 -> nth_error h11 b = nth_error h4 b).
    { intros b Hb. unfold h11. rewrite set_other by lia. rewrite S10, S9 by apply (NN b Hb). rewrite S8, S7, S6, S5 by lia. reflexivity. }
    destruct (free_all_ok [q1; 1 + q1; 2 + q1; 3 + q1] h11) as (h12 & E12 & L12 & D12 & S12).
    { intros b Hb. apply (live_same h4); [apply OLD|apply V4]; cbn in Hb; lia. }
    { repeat constructor; cbn; lia. }
    rewrite E12. exists h12. split; [reflexivity|]. split.
    - intros b Hb. rewrite S12 by (cbn; lia). rewrite OLD by lia. apply S4. exact Hb.
    - intros b Hb (bb & LV). fold q1 in Hb. unfold holds in LV.
      destruct (Nat.lt_ge_cases b (4 + q1)) as [Q|Q].
      { assert (DB : dead h12 b) by (apply D12; cbn; lia). unfold dead in DB. congruence. }
      rewrite S12 in LV by (cbn; lia). unfold h11 in LV.
      destruct (Nat.eq_dec b (length h6)) as [-> |NE]; [rewrite set_same in LV by (apply live_lt; exact VC); discriminate|]. rewrite set_other in LV by congruence.
      destruct (in_dec Nat.eq_dec b (opt_blocks o')) as [Q1|Q1]; [apply D10 in Q1; unfold dead in Q1; congruence|]. rewrite S10 in LV by exact Q1.
      destruct (in_dec Nat.eq_dec b (net_blocks nn)) as [Q2|Q2]; [apply D9 in Q2; unfold dead in Q2; congruence|]. rewrite S9 in LV by exact Q2.
      rewrite B5 in Q2. rewrite OB, B6 in Q1. assert (b < length h8) by (apply nth_error_Some; congruence). lia.
  Qed.

  (** if a file cannot be read, the program ends at once: the arrays of the other files stay, and nothing else is taken *)
  Theorem example_03_missing : forall h st X Y vX vY n_in n file log_ok,
    In None [X; Y; vX; vY] ->
    exists h', main_03 mem lib_opens dlsym h st X Y vX vY n_in n file log_ok = Ok (h', false)
      /\ (forall b, b < length h -> nth_error h' b = nth_error h b) /\ (forall b, length h <= b < length h' -> live h' b)
      /\ length h' = length h + length (filter (fun f : option Z => match f with Some _ => true | None => false end) [X; Y; vX; vY]).
  Proof.
    intros h st X Y vX vY n_in n file log_ok IN. unfold main_03.
    assert (K : forall f g, exists t, data_array mem g f = (g ++ t, match f with Some _ => Some (length g) | None => None end)
      /\ length t = (match f with Some _ => 1 | None => 0 end) /\ forall b, In b t -> exists z, b = Some z).
    { intros [z|] g; unfold data_array; [rewrite malloc_ok by apply HM; eexists; split; [reflexivity|]; split; [reflexivity|]; intros b [<-|[]]; eexists; reflexivity|].
      exists []. rewrite app_nil_r. split; [reflexivity|]. split; [reflexivity|]. intros b []. }
    destruct (K X h) as (t1 & -> & L1 & A1). destruct (K Y (h ++ t1)) as (t2 & -> & L2 & A2). destruct (K vX ((h ++ t1) ++ t2)) as (t3 & -> & L3 & A3).
    destruct (K vY (((h ++ t1) ++ t2) ++ t3)) as (t4 & -> & L4 & A4). exists ((((h ++ t1) ++ t2) ++ t3) ++ t4).
    split. { destruct X, Y, vX, vY; try reflexivity. cbn in IN. destruct IN as [Q|[Q|[Q|[Q|[]]]]]; discriminate. }
    rewrite <- !app_assoc. split; [intros b Hb; apply nth_error_app1; exact Hb|]. split.
    - intros b Hb. unfold live, holds. rewrite nth_error_app2 by lia.
      assert (A : forall c, In c (t1 ++ t2 ++ t3 ++ t4) -> exists z, c = Some z) by (intros c Hc; rewrite !in_app_iff in Hc; destruct Hc as [Hc|[Hc|[Hc|Hc]]]; auto).
      destruct (nth_error (t1 ++ t2 ++ t3 ++ t4) (b - length h)) as [c|] eqn:Q.
      + destruct (A c (nth_error_In _ _ Q)) as (z & ->). exists z. reflexivity.
      + apply nth_error_None in Q. rewrite app_length in Hb. lia.
    - rewrite !app_length, L1, L2, L3, L4. destruct X, Y, vX, vY; reflexivity.
  Qed.
End Memory.
Print Assumptions example_03_frees.
Print Assumptions example_03_missing.

(** so the program does not always free its memory: without the last file three arrays are left *)
Theorem example_03_frees_refuted : exists X Y vX vY n_in n file log_ok h', main_03 (fun _ _ => true) (fun _ => false) (fun _ _ => None) [] [] X Y vX vY n_in n file log_ok = Ok (h', false)
  /\ live h' 0 /\ live h' 1 /\ live h' 2 /\ length h' = 3.
Proof.
  exists (Some 8%Z), (Some 10%Z), (Some 4%Z), None, 4%Z, 2%Z, None, true. eexists. split; [reflexivity|]. repeat split; eexists; reflexivity.
Qed.
Print Assumptions example_03_frees_refuted.
(** the hypotheses of example_03_frees can be met: 60000 images of 28 * 28 *)
Example example_03_case : (1 <= 784)%Z /\ ((784 + 1) * 256 < 2147483648)%Z /\ (1 <= 60000)%Z /\ In None [Some 8%Z; Some 10%Z; Some 4%Z; None].
Proof. cbn. intuition lia. Qed.
(** a run with one feature, five samples: it takes blocks, and none of them is live at the end *)
Example example_03_run : (match main_03 (fun _ _ => true) (fun _ => false) (fun _ _ => None) [None] [] (Some 5%Z) (Some 50%Z) (Some 2%Z) (Some 20%Z) 1 5 None true with
  | Ok (h, ended) => Some (ended, length h, existsb (fun b => match b with Some _ => true | None => false end) h) | Fault _ => None end) = Some (true, 18, false).
Proof. vm_compute. reflexivity. Qed.
