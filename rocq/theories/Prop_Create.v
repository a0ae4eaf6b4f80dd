(** Prop_Create.v -- C51, C52, C53: creating networks. *)
From Coq Require Import ZArith Bool String Ascii List Lia.
From Verif Require Import Base BaseProofs Activation Logger Npy NpyList SpecNpy NpyProofs SpecList ListProofs Registry SpecRegistry
  Create SpecCreate SpecLog Prop_Registry CreateProofs.
Import ListNotations.
Local Open Scope nat_scope.

(** sizes that are at least 1, ints, and whose products are ints *)
Definition sizes_fit (sizes : list Z) : Prop :=
  Forall (fun s => 1 <= s < 2147483648)%Z sizes /\ Forall (fun s => fst s * snd s < 2147483648)%Z (steps sizes).

(** ** lemmas *)
Lemma steps_len sizes : length (steps sizes) = length sizes - 1.
Proof. induction sizes as [|a [|b r] IH]; [reflexivity..|]. cbn [steps length] in *. rewrite IH. lia. Qed.
Definition fresh_layer (s : Z * Z) : clayer := mk_clayer (fst s) (snd s) FUninit FUninit None.
Lemma init_layers_steps n : forall sizes, length sizes = S n -> init_layers n sizes = map fresh_layer (steps sizes).
Proof.
  induction n as [|n IH]; intros [|a [|b r]] E; cbn in E; try lia; [reflexivity|].
  change (init_layers (S n) (a :: b :: r)) with (fresh_layer (a, b) :: init_layers n (b :: r)).
  change (steps (a :: b :: r)) with ((a, b) :: steps (b :: r)). rewrite IH by (cbn; lia). reflexivity.
Qed.
Lemma sizes_ok_true n : forall sizes, length sizes = S n -> Forall (fun s => 1 <= s)%Z sizes -> sizes_ok n sizes = Ok true.
Proof.
  induction n as [|n IH]; intros [|a r] E F; cbn in E; try lia; inversion F; subst; cbn [sizes_ok]; (destruct (Z.ltb_spec a 1); [lia|]); [reflexivity|].
  apply IH; [lia|assumption].
Qed.
Lemma sizes_ok_false n : forall sizes, length sizes = S n -> Exists (fun s => s < 1)%Z sizes -> sizes_ok n sizes = Ok false.
Proof.
  induction n as [|n IH]; intros [|a r] E F; cbn in E; try lia; inversion F as [? ? Q|? ? Q]; subst; cbn [sizes_ok].
  - destruct (Z.ltb_spec a 1); [reflexivity|lia].
  - destruct r; [inversion Q|cbn in E; lia].
  - destruct (Z.ltb_spec a 1); [reflexivity|lia].
  - destruct (Z.ltb_spec a 1); [reflexivity|]. apply IH; [lia|exact Q].
Qed.
Lemma steps_fit sizes : sizes_fit sizes -> Forall good_layer (map fresh_layer (steps sizes)).
Proof.
  intros (F & P). revert P. induction sizes as [|a [|b r] IH]; intros P; [constructor..|].
  change (steps (a :: b :: r)) with ((a, b) :: steps (b :: r)) in *.
  inversion F as [|? ? F1 F2]; subst. inversion F2 as [|? ? F3 F4]; subst. inversion P; subst. constructor; [|apply IH; assumption].
  unfold good_layer, fresh_layer. cbn in *. repeat split; try lia; assumption.
Qed.
Lemma steps_fresh ss : Forall fresh (map fresh_layer ss).
Proof. induction ss; constructor; [split; reflexivity|assumption]. Qed.

Section Props.
  Variable mem : nat -> Z -> bool.
  Variable lib_opens : bytes -> bool.
  Variable dlsym : bytes -> bytes -> option (option nat).
  Let create := create mem lib_opens dlsym.

  (** C51: NULL for bad arguments *)
  Theorem create_rejects h st n sizes names :
    (n < 1)%Z \/ (length sizes = S (Z.to_nat n) /\ Exists (fun s => s < 1)%Z sizes) -> create h st n sizes names = Ok (h, st, None).
  Proof.
    unfold create, Create.create. intros H. destruct (Z.ltb_spec n 1) as [|GE]; [reflexivity|]. destruct H as [H|(L & E)]; [lia|].
    rewrite (sizes_ok_false _ _ L E). reflexivity.
  Qed.

  Lemma set_funcs_ok (names : list (option bytes)) : Forall (fun o => forall s, o = Some s -> short_symbol lib_opens s) names -> forall ls st i, i + length ls <= length names ->
    exists st' fs, set_funcs lib_opens dlsym st ls (Some names) i = Ok (st', map (fun p => set_f (fst p) (snd p)) (combine ls fs))
      /\ length fs = length ls /\ Forall2 (function_for lib_opens dlsym) (firstn (length ls) (skipn i names)) fs /\ exists l, st' = st ++ l.
  Proof.
    intros SH ls. induction ls as [|l ls IH]; intros st i L.
    - exists st, []. split; [reflexivity|]. split; [reflexivity|]. split; [constructor|]. exists []. rewrite app_nil_r. reflexivity.
    - cbn [length] in L. destruct (skipn_cons i names) as (o & ES & EN); [lia|]. cbn [set_funcs]. rewrite EN. cbn [rbind].
      assert (SO : forall s, o = Some s -> short_symbol lib_opens s).
      { rewrite Forall_forall in SH. apply SH. eapply nth_error_In. exact EN. }
      assert (LIN : forall st, get_activation_func lib_opens dlsym st (chars "linear") = Ok (st, Some (Builtin Linear))) by reflexivity.
      assert (X : exists st1 f, rbind (get_activation_func lib_opens dlsym st (match o with Some s => s | None => chars "linear" end)) (fun r =>
          match snd r with
          | Some f => Ok (fst r, f)
          | None => rbind (get_activation_func lib_opens dlsym (fst r) (chars "linear")) (fun r =>
                    match snd r with Some f => Ok (fst r, f) | None => Fault BadPointer end)
          end) = Ok (st1, f) /\ function_for lib_opens dlsym o f /\ exists l, st1 = st ++ l).
      { destruct o as [s|].
        - destruct (registry_lookup lib_opens dlsym st s (SO s eq_refl)) as (st1 & [f|] & E & P & N).
          + exists st1, f. rewrite E. split; [reflexivity|]. split; [left; apply N; reflexivity|exact P].
          + exists st1, (Builtin Linear). rewrite E. cbn [rbind snd fst]. rewrite LIN. split; [reflexivity|]. split; [|exact P].
            right. split; [|reflexivity]. intros g NG. apply N in NG. discriminate.
        - exists st, (Builtin Linear). rewrite LIN. split; [reflexivity|]. split; [reflexivity|]. exists []. rewrite app_nil_r. reflexivity. }
      destruct X as (st1 & f & E & FF & (l1 & P1)).
      destruct (get_activation_func lib_opens dlsym st (match o with Some s => s | None => chars "linear" end)) as [r|]; [|discriminate].
      cbn [rbind] in E |- *. rewrite E. cbn [rbind fst snd].
      destruct (IH st1 (S i)) as (st2 & fs & E2 & L2 & F2 & (l2 & P2)); [lia|]. rewrite E2. cbn [rbind fst snd].
      exists st2, (f :: fs). split; [reflexivity|]. split; [cbn; lia|]. split.
      + rewrite ES. cbn [length firstn]. constructor; [exact FF|]. exact F2.
      + exists (l1 ++ l2). rewrite P2, P1, app_assoc. reflexivity.
  Qed.

  Lemma combine_blocks ls : forall fs, length fs = length ls ->
    flat_map layer_blocks (map (fun p => set_f (fst p) (snd p)) (combine ls fs)) = flat_map layer_blocks ls.
  Proof.
    induction ls as [|l ls IH]; intros [|f fs] L; cbn in L; try lia; [reflexivity|]. cbn [combine map flat_map]. rewrite IH by lia. reflexivity.
  Qed.

  (** C51: with enough memory, a network of the sizes with the named functions and no loss *)
  Theorem create_network h st n sizes (names : list (option bytes)) :
    1 <= n -> length sizes = S n -> sizes_fit sizes ->
    n <= length names -> Forall (fun o => forall s, o = Some s -> short_symbol lib_opens s) names ->
    (forall k s, mem k s = true) ->
    exists h' st' nn, create h st (Z.of_nat n) sizes (Some names) = Ok (h', st', Some nn)
      /\ is_net h' sizes nn /\ cn_loss nn = None
      /\ Forall2 (fun name l => exists f, cl_func l = Some f /\ function_for lib_opens dlsym name f) (firstn n names) (cn_layers nn)
      /\ (forall x, In x (net_blocks nn) <-> length h <= x < length h')
      /\ (forall x, x < length h -> nth_error h' x = nth_error h x)
      /\ exists l, st' = st ++ l.
  Proof.
    intros N1 L FIT LN SH HM. unfold create, Create.create.
    destruct (Z.ltb_spec (Z.of_nat n) 1); [lia|]. rewrite Nat2Z.id.
    rewrite (sizes_ok_true n sizes L).
    2:{ eapply Forall_impl; [|exact (proj1 FIT)]. cbn. lia. }
    cbn [rbind negb]. rewrite malloc_ok by apply HM. rewrite malloc_ok by apply HM.
    rewrite (init_layers_steps _ _ L). pose proof (steps_fit _ FIT) as G. set (ls := map fresh_layer (steps sizes)) in *.
    assert (LL : length ls = n) by (unfold ls; rewrite map_length, steps_len; lia).
    set (h2 := (h ++ _) ++ _).
    assert (L2 : length h2 = 2 + length h) by (unfold h2; rewrite !app_len1; lia).
    rewrite weights_allocate_ok; [|exact G|intros; apply HM]. cbn [rbind].
    set (lp := placed_b _ _). assert (LP : length lp = n) by (unfold lp; rewrite placed_b_len, placed_w_len; exact LL).
    destruct (set_funcs_ok names SH lp st 0) as (st' & fs & E & LF & FF & P); [lia|]. rewrite E. cbn [rbind fst snd].
    eexists. eexists. eexists. split; [reflexivity|]. cbn [cn_loss cn_layers].
    set (h' := h2 ++ _ ++ _).
    assert (LH : length h' = 2 + length h + 2 * n).
    { unfold h'. rewrite !app_length, mems_w_len, mems_b_len, L2. lia. }
    assert (BL : forall x, In x (flat_map layer_blocks lp) <-> 2 + length h <= x < length h').
    { intros x. unfold lp. rewrite placed_blocks, LH, LL, L2. lia. }
    assert (O2 : forall x, x < length h2 -> nth_error h' x = nth_error h2 x).
    { intros x Hx. unfold h'. apply nth_error_app1. exact Hx. }
    split; [|split; [reflexivity|split; [|split; [|split; [|exact P]]]]].
    - split; [|split; [|split]].
      + assert (Q : forall i s l, nth_error (steps sizes) i = Some s -> nth_error (map (fun p => set_f (fst p) (snd p)) (combine lp fs)) i = Some l ->
           is_layer h' (fst s) (snd s) l).
        { intros i s l Es El.
          assert (I : i < n). { rewrite <- LL. unfold ls. rewrite map_length. apply nth_error_Some. congruence. }
          assert (E1 : nth_error ls i = Some (fresh_layer s)) by (unfold ls; rewrite nth_error_map, Es; reflexivity).
          assert (E2 : nth_error lp i = Some (set_b (set_w (fresh_layer s) (FPtr (length h2 + i))) (FPtr (length h2 + length ls + i)))).
          { unfold lp. apply placed_b_nth. apply placed_w_nth. exact E1. }
          assert (E3 : exists f, l = set_f (set_b (set_w (fresh_layer s) (FPtr (length h2 + i))) (FPtr (length h2 + length ls + i))) f).
          { rewrite nth_error_map in El. destruct (nth_error (combine lp fs) i) as [[l0 f]|] eqn:EC; [|discriminate]. cbn in El. injection El as <-.
            exists f. assert (E4 : nth_error lp i = Some l0).
            { clear -EC. revert fs i EC. induction lp as [|y lp IH]; intros [|g fs] [|i] EC; cbn in EC; try discriminate; [injection EC as <- <-; reflexivity|]. apply (IH fs i EC). }
            rewrite E2 in E4. injection E4 as <-. reflexivity. }
          destruct E3 as (f & ->).
          assert (GL : good_layer (fresh_layer s)). { rewrite Forall_forall in G. apply G. eapply nth_error_In. exact E1. }
          destruct GL as (G1 & G2 & G3). cbn in G1, G2, G3.
          split; [reflexivity|]. split; [reflexivity|]. cbn [set_f set_b set_w cl_w cl_b]. split.
          - exists (length h2 + i), (repeat None (Z.to_nat (fst s * snd s * 4))). split; [reflexivity|]. split; [|rewrite repeat_length; lia].
            unfold holds, h'. rewrite nth_error_app2 by lia. rewrite nth_error_app1 by (rewrite mems_w_len; lia).
            replace (length h2 + i - length h2) with i by lia. unfold mems_w. rewrite nth_error_map, E1. reflexivity.
          - exists (length h2 + length ls + i), (repeat None (Z.to_nat (snd s * 4))). split; [reflexivity|]. split; [|rewrite repeat_length; lia].
            unfold holds, h'. rewrite nth_error_app2 by lia. rewrite nth_error_app2 by (rewrite mems_w_len; lia). rewrite mems_w_len.
            replace (length h2 + length ls + i - length h2 - length ls) with i by lia. unfold mems_b. rewrite nth_error_map, E1. reflexivity. }
        assert (LC : length (map (fun p => set_f (fst p) (snd p)) (combine lp fs)) = length (steps sizes)).
        { rewrite map_length, combine_length, steps_len. lia. }
        revert Q LC. generalize (steps sizes) as ss. generalize (map (fun p => set_f (fst p) (snd p)) (combine lp fs)) as ll.
        induction ll as [|l ll IH]; intros [|s ss] Q LC; cbn in LC; try lia; constructor.
        * exact (Q 0 s l eq_refl eq_refl).
        * apply IH; [|lia]. intros i s' l' H1 H2. exact (Q (S i) s' l' H1 H2).
      + cbn [cn_self]. apply (live_same h2); [apply O2; lia|]. unfold h2. rewrite <- app_assoc. eexists. unfold holds. rewrite nth_error_app2 by lia. rewrite Nat.sub_diag. reflexivity.
      + cbn [cn_arr]. apply (live_same h2); [apply O2; rewrite app_len1; lia|]. eexists. unfold holds, h2. apply app_new.
      + unfold net_blocks. cbn [cn_self cn_arr cn_layers]. rewrite combine_blocks by (rewrite LF; reflexivity).
        rewrite app_len1. constructor; [|constructor].
        * intros [Q|Q]; [lia|]. apply BL in Q. lia.
        * intros Q. apply BL in Q. lia.
        * apply placed_nodup. lia.
    - rewrite LP in FF. cbn [skipn] in FF. revert FF LF. generalize (firstn n names) as ns. clear. revert fs. induction lp as [|l lp IH]; intros fs ns FF LF.
      + destruct fs; [|cbn in LF; lia]. inversion FF; subst. constructor.
      + destruct fs as [|f fs]; [cbn in LF; lia|]. inversion FF; subst. cbn [combine map]. constructor; [|apply IH; [assumption|cbn in LF; lia]].
        exists f. split; [reflexivity|assumption].
    - intros x. unfold net_blocks. cbn [cn_self cn_arr cn_layers]. rewrite combine_blocks by (rewrite LF; reflexivity).
      cbn [In]. rewrite BL, app_len1, LH. lia.
    - intros x Hx. rewrite O2 by lia. unfold h2. rewrite <- app_assoc. apply nth_error_app1. exact Hx.
  Qed.

  (** freeing a network frees each of its blocks once and nothing else *)
  Theorem free_network h sizes nn : is_net h sizes nn ->
    exists h', net_free h nn = Ok h' /\ (forall x, In x (net_blocks nn) -> dead h' x) /\ (forall x, ~ In x (net_blocks nn) -> nth_error h' x = nth_error h x).
  Proof.
    intros (F & LS & LA & ND). unfold net_blocks in *. inversion ND as [|? ? N1 ND1]; subst. inversion ND1 as [|? ? N2 ND2]; subst. cbn [In] in N1.
    assert (X : Forall written (cn_layers nn) /\ forall x, In x (flat_map layer_blocks (cn_layers nn)) -> live h x).
    { clear -F. induction F as [|s l ss ls H F (W & LV)]; [split; [constructor|intros x []]|].
      destruct H as (_ & _ & (a & la & Ea & Ha & _) & (b & lb & Eb & Hb & _)). split.
      - constructor; [|exact W]. split; congruence.
      - intros x Hx. cbn [flat_map] in Hx. apply in_app_or in Hx. destruct Hx as [Hx|Hx]; [|apply LV; exact Hx].
        unfold layer_blocks in Hx. rewrite Ea, Eb in Hx. cbn in Hx. destruct Hx as [<-|[<-|[]]]; [exists (BMem la)|exists (BMem lb)]; assumption. }
    destruct X as (W & LV). unfold net_free.
    destruct (weights_free_ok _ h W LV ND2) as (h1 & E1 & L1 & D1 & S1). rewrite E1. cbn [rbind].
    assert (LA' : live h1 (cn_arr nn)) by (apply (live_same h); [apply S1; exact N2|exact LA]).
    rewrite (live_free _ _ LA'). cbn [rbind].
    assert (LS' : live (set_nth h1 (cn_arr nn) None) (cn_self nn)).
    { apply (live_same h); [|exact LS]. rewrite set_other by (intros E; apply N1; left; exact E). apply S1. intros Q. apply N1. right. exact Q. }
    rewrite (live_free _ _ LS'). eexists. split; [reflexivity|]. split.
    - intros x Hx. unfold dead. destruct (Nat.eq_dec x (cn_self nn)) as [-> |NE].
      { apply set_same. rewrite length_set_nth. apply live_lt in LS. lia. }
      rewrite set_other by congruence. destruct (Nat.eq_dec x (cn_arr nn)) as [-> |NE2].
      { apply set_same. apply live_lt in LA'. exact LA'. }
      rewrite set_other by congruence. apply D1. destruct Hx as [Q|[Q|Q]]; [congruence..|exact Q].
    - intros x Hx. rewrite set_other by (intros E; apply Hx; left; exact E).
      rewrite set_other by (intros E; apply Hx; right; left; exact E). apply S1. intros Q; apply Hx; right; right; exact Q.
  Qed.

  (** C52: allocation number k of neuralnet_create fails.  NULL is returned and everything freed if it is the first
      or the second or the last; REFUTED for the others: fields of the layers that were never written are freed *)
  Theorem create_no_memory h st n sizes names k :
    1 <= n -> length sizes = S n -> sizes_fit sizes -> k < 2 * n + 2 ->
    (forall i s, length h <= i < length h + k -> mem i s = true) -> (forall s, mem (length h + k) s = false) ->
    if (k =? 0) || (k =? 1) || (k =? 2 * n + 1)
    then exists h', create h st (Z.of_nat n) sizes names = Ok (h', st, None)
           /\ (forall x, length h <= x < length h' -> dead h' x) /\ (forall x, x < length h -> nth_error h' x = nth_error h x)
    else create h st (Z.of_nat n) sizes names = Fault Uninit.
  Proof.
    intros N1 L FIT K HM HF. unfold create, Create.create.
    destruct (Z.ltb_spec (Z.of_nat n) 1); [lia|]. rewrite Nat2Z.id. rewrite (sizes_ok_true n sizes L).
    2:{ eapply Forall_impl; [|exact (proj1 FIT)]. cbn. lia. }
    cbn [rbind negb].
    destruct (Nat.eqb_spec k 0) as [-> |K0]; cbn [orb].
    { rewrite malloc_fail by (rewrite <- (Nat.add_0_r (length h)); apply HF). exists h. split; [reflexivity|]. split; [intros; lia|reflexivity]. }
    rewrite malloc_ok by (apply HM; lia).
    destruct (Nat.eqb_spec k 1) as [-> |K1]; cbn [orb].
    { rewrite malloc_fail by (rewrite app_len1, <- Nat.add_1_r; apply HF).
      assert (LV : live (h ++ [new_mem 24]) (length h)) by (eexists; unfold holds; apply app_new).
      rewrite (live_free _ _ LV). cbn [rbind]. eexists. split; [reflexivity|]. rewrite length_set_nth, app_len1. split.
      - intros x Hx. assert (x = length h) as -> by lia. unfold dead. apply set_same. rewrite app_len1. lia.
      - intros x Hx. rewrite set_other by lia. apply app_old. exact Hx. }
    rewrite malloc_ok by (apply HM; rewrite app_len1; lia).
    rewrite (init_layers_steps _ _ L). pose proof (steps_fit _ FIT) as G. pose proof (steps_fresh (steps sizes)) as FR. set (ls := map fresh_layer (steps sizes)) in *.
    assert (LL : length ls = n) by (unfold ls; rewrite map_length, steps_len; lia).
    set (h2 := (h ++ _) ++ _).
    assert (L2 : length h2 = 2 + length h) by (unfold h2; rewrite !app_len1; lia).
    destruct (Nat.eqb_spec k (2 * n + 1)) as [-> |K2].
    - destruct (weights_allocate_fail_last mem h2 ls) as (h3 & ls3 & E & L3 & D & SA); [exact G|lia| | |].
      { intros i s Hi. apply HM. lia. }
      { intros s. rewrite L2, LL. replace (2 + length h + 2 * n - 1) with (length h + (2 * n + 1)) by lia. apply HF. }
      rewrite E. cbn [rbind].
      assert (LA : live h3 (length (h ++ [new_mem 24]))).
      { apply (live_same h2); [apply SA; rewrite app_len1; lia|]. eexists. unfold holds, h2. apply app_new. }
      rewrite (live_free _ _ LA). cbn [rbind].
      assert (LS : live (set_nth h3 (length (h ++ [new_mem 24])) None) (length h)).
      { apply (live_same h3); [apply set_other; rewrite app_len1; lia|]. apply (live_same h2); [apply SA; lia|].
        unfold h2. rewrite <- app_assoc. eexists. unfold holds. rewrite nth_error_app2 by lia. rewrite Nat.sub_diag. reflexivity. }
      rewrite (live_free _ _ LS). cbn [rbind]. eexists. split; [reflexivity|]. rewrite !length_set_nth, app_len1. split.
      + intros x Hx. unfold dead. destruct (Nat.eq_dec x (length h)) as [-> |NE]; [apply set_same; rewrite length_set_nth; lia|].
        rewrite set_other by congruence. destruct (Nat.eq_dec x (S (length h))) as [-> |NE2]; [apply set_same; lia|].
        rewrite set_other by congruence. apply D. lia.
      + intros x Hx. rewrite !set_other by lia. rewrite SA by lia. unfold h2. rewrite <- app_assoc. apply nth_error_app1. exact Hx.
    - destruct (Nat.lt_ge_cases k (2 + n)) as [KW|KB].
      + rewrite (weights_allocate_fail_w mem h2 ls (k - 2)); [reflexivity|exact G|exact FR|lia| |].
        * intros i s Hi. apply HM. lia.
        * intros s. rewrite L2. replace (2 + length h + (k - 2)) with (length h + k) by lia. apply HF.
      + rewrite (weights_allocate_fail_b mem h2 ls (k - 2 - n)); [reflexivity|exact G|exact FR|lia| |].
        * intros i s Hi. apply HM. lia.
        * intros s. rewrite L2, LL. replace (2 + length h + n + (k - 2 - n)) with (length h + k) by lia. apply HF.
  Qed.

  (** C53: sizes whose product is not an int *)
  Lemma alloc_weights_over ls : forall h, Forall (fun l => 1 <= cl_in l /\ 1 <= cl_out l)%Z ls ->
    Exists (fun l => 2147483648 <= cl_in l * cl_out l)%Z ls -> (forall k s, mem k s = true) -> alloc_weights mem h ls = Fault IntOverflow.
  Proof.
    induction ls as [|l ls IH]; intros h F E HM; [inversion E|]. cbn [alloc_weights]. unfold mul_int.
    pose proof (Forall_inv F) as (F1 & F2). apply Forall_inv_tail in F.
    destruct (Z.lt_ge_cases (cl_in l * cl_out l) 2147483648) as [LT|GE].
    - rewrite to_int_ok by nia. cbn [rbind]. rewrite malloc_ok by apply HM.
      inversion E as [? ? Q|? ? Q]; subst; [lia|]. rewrite IH by assumption. reflexivity.
    - rewrite to_int_over by exact GE. reflexivity.
  Qed.
  Theorem create_overflow h st n sizes names :
    1 <= n -> length sizes = S n -> Forall (fun s => 1 <= s)%Z sizes -> Exists (fun s => 2147483648 <= fst s * snd s)%Z (steps sizes) ->
    (forall k s, mem k s = true) -> create h st (Z.of_nat n) sizes names = Fault IntOverflow.
  Proof.
    intros N1 L F E HM. unfold create, Create.create. destruct (Z.ltb_spec (Z.of_nat n) 1); [lia|]. rewrite Nat2Z.id.
    rewrite (sizes_ok_true n sizes L F). cbn [rbind negb]. rewrite !malloc_ok by apply HM. rewrite (init_layers_steps _ _ L).
    unfold weights_allocate.
    assert (X : Forall (fun l => 1 <= cl_in l /\ 1 <= cl_out l)%Z (map fresh_layer (steps sizes))).
    { clear -F. induction sizes as [|a [|b r] IH]; [constructor..|]. change (steps (a :: b :: r)) with ((a, b) :: steps (b :: r)).
      inversion F as [|? ? F1 F2]; subst. inversion F2; subst. constructor; [split; assumption|apply IH; exact F2]. }
    assert (EX : existsb (fun l => (cl_in l <? 1) || (cl_out l <? 1))%Z (map fresh_layer (steps sizes)) = false).
    { clear -X. induction X as [|l ls (G1 & G2) G IH]; [reflexivity|]. cbn [existsb]. rewrite IH.
      destruct (Z.ltb_spec (cl_in l) 1); [lia|]. destruct (Z.ltb_spec (cl_out l) 1); [lia|]. reflexivity. }
    rewrite EX. rewrite alloc_weights_over; [reflexivity|exact X| |exact HM].
    apply Exists_exists in E. destruct E as (s & I & Q). apply Exists_exists. exists (fresh_layer s). split; [apply in_map; exact I|exact Q].
  Qed.
End Props.
Print Assumptions create_rejects.
Print Assumptions create_network.
Print Assumptions free_network.
Print Assumptions create_no_memory.
Print Assumptions create_overflow.

(** the number of parameters of a network of the sizes *)
Fixpoint parameters (ss : list (Z * Z)) : Z := match ss with [] => 0 | s :: ss => (fst s + 1) * snd s + parameters ss end.

(** C53: what neuralnet_total_n_parameters returns *)
Theorem total_params_exact_partial h sizes nn :
  is_net h sizes nn -> Forall (fun s => 1 <= fst s /\ 1 <= snd s /\ (fst s + 1) * snd s < 2147483648)%Z (steps sizes) ->
  total_params (cn_layers nn) 0 = Ok (parameters (steps sizes) mod 4294967296)%Z.
Proof.
  intros (F & _) FS. change (parameters (steps sizes)) with (0 + parameters (steps sizes))%Z.
  assert (E0 : (0 = 0 mod 4294967296)%Z) by reflexivity. rewrite E0 at 1. clear E0. generalize 0%Z as c.
  induction F as [|s l ss ls H F IH]; intros c; cbn [total_params parameters].
  - f_equal. f_equal. lia.
  - pose proof (Forall_inv FS) as (F1 & F2 & F3). apply Forall_inv_tail in FS. destruct H as (E1 & E2 & _). rewrite E1, E2.
    rewrite to_int_ok by nia. cbn [rbind]. unfold mul_int. rewrite to_int_ok by nia. cbn [rbind].
    rewrite Zplus_mod_idemp_l. rewrite IH by exact FS. f_equal. f_equal. lia.
Qed.
Print Assumptions total_params_exact_partial.

(** REFUTED: creating a network of 1 input and 2^30 outputs works, counting its parameters overflows *)
Theorem total_params_refuted : exists sizes, sizes_fit sizes /\
  forall h nn, is_net h sizes nn -> total_params (cn_layers nn) 0 = Fault IntOverflow.
Proof.
  exists [1; 1073741824]%Z. split.
  - split; [constructor; [lia|constructor; [lia|constructor]]|]. cbn. constructor; [cbn; lia|constructor].
  - intros h nn (F & _). change (steps [1; 1073741824]%Z) with [(1, 1073741824)]%Z in F. inversion F as [|? l ? ls H F' E1 E2]; subst.
    destruct H as (H1 & H2 & _). cbn [total_params]. rewrite H1, H2. reflexivity.
Qed.
Print Assumptions total_params_refuted.

(** ** cases *)
Definition all_mem (k : nat) (s : Z) : bool := true.
Definition no_lib (s : bytes) : bool := false.
Definition no_sym (l s : bytes) : option (option nat) := None.
Definition ex_sizes : list Z := [2; 3; 1]%Z.
Definition ex_names : list (option bytes) := [Some (txt "tanh"); None].
Example create_network_ex : length ex_sizes = 3 /\ sizes_fit ex_sizes
  /\ Forall (fun o => forall s, o = Some s -> short_symbol no_lib s) ex_names
  /\ exists h' nn, create all_mem no_lib no_sym [] [] 2 ex_sizes (Some ex_names) = Ok (h', [], Some nn)
     /\ map cl_func (cn_layers nn) = [Some (Builtin Tanh); Some (Builtin Linear)] /\ length h' = 6.
Proof.
  split; [reflexivity|]. split.
  { split; repeat constructor; cbn; lia. }
  split.
  - apply Forall_forall. intros o _ s _ sy li _ Q. discriminate.
  - eexists. eexists. split; [vm_compute; reflexivity|]. split; reflexivity.
Qed.
(** a misspelt name gives a linear layer *)
Example create_unknown_ex : exists h' nn, create all_mem no_lib no_sym [] [] 1 [2; 1]%Z (Some [Some (txt "rleu")]) = Ok (h', [], Some nn)
  /\ map cl_func (cn_layers nn) = [Some (Builtin Linear)].
Proof. eexists. eexists. split; [vm_compute; reflexivity|reflexivity]. Qed.
(** no array of names, or too short an array: undefined *)
Example create_null_names : create all_mem no_lib no_sym [] [] 1 [2; 1]%Z None = Fault BadPointer.
Proof. vm_compute. reflexivity. Qed.
Example create_short_names : create all_mem no_lib no_sym [] [] 2 [2; 1; 1]%Z (Some [Some (txt "relu")]) = Fault OutOfBounds.
Proof. vm_compute. reflexivity. Qed.
(** the bias of the first of two layers cannot be allocated *)
Theorem create_no_memory_refuted : exists mem h st n sizes names,
  create mem no_lib no_sym h st n sizes names = Fault Uninit.
Proof. exists (fun k _ => negb (k =? 4)), [], [], 2%Z, ex_sizes, (Some ex_names). vm_compute. reflexivity. Qed.
Print Assumptions create_no_memory_refuted.
Example create_no_memory_last : exists h', create (fun k _ => negb (k =? 5)) no_lib no_sym [] [] 2 ex_sizes (Some ex_names) = Ok (h', [], None)
  /\ h' = [None; None; None; None; None].
Proof. eexists. split; vm_compute; reflexivity. Qed.
(** two layers of 46341 neurons *)
Theorem create_overflow_refuted : exists sizes, Forall (fun s => 1 <= s < 2147483648)%Z sizes /\
  forall h st names, create all_mem no_lib no_sym h st 1 sizes names = Fault IntOverflow.
Proof.
  exists [46341; 46341]%Z. split; [constructor; [lia|constructor; [lia|constructor]]|]. intros h st names.
  apply (create_overflow all_mem no_lib no_sym h st 1); try reflexivity; try lia.
  - constructor; [lia|constructor; [lia|constructor]].
  - constructor. cbn. lia.
Qed.
Print Assumptions create_overflow_refuted.
