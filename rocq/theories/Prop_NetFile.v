(** Prop_NetFile.v -- saving and loading networks: C47, C48, C49. *)
From Coq Require Import ZArith Bool String Ascii List Lia.
From Verif Require Import Base BaseProofs Activation Logger Npy NpyList SpecNpy NpyProofs NpyProofs2 Prop_Npy SpecList ListProofs Prop_List
  Registry SpecRegistry Create SpecCreate SpecLog Prop_Registry CreateProofs Prop_Create NetFile SpecNetFile LoadProofs SaveProofs.
Import ListNotations.
Local Open Scope nat_scope.

Lemma forall2_len {A B} (P : A -> B -> Prop) l l' : Forall2 P l l' -> length l = length l'.
Proof. induction 1; cbn; congruence. Qed.

Section Props.
  Variable alloc : Z -> bool.
  Variable utf8 : bytes -> bool.
  Variable mem : nat -> Z -> bool.
  Variable lib_opens : bytes -> bool.
  Variable dlsym : bytes -> bytes -> option (option nat).

  (** the records have the names that were looked up *)
  Lemma lookups_names ns : forall st st' fs, lookups lib_opens dlsym st ns = Ok (st', fs) ->
    Forall (fun r => In r st \/ In (rc_name r) ns) st'.
  Proof.
    induction ns as [|s ns IH]; intros st st' fs E; cbn [lookups] in E.
    - injection E as <- <-. rewrite Forall_forall. intros r Hr. left. exact Hr.
    - destruct (get_activation_func lib_opens dlsym st s) as [[st1 f]|] eqn:E1; [|discriminate]. cbn [rbind fst snd] in E.
      destruct (lookups lib_opens dlsym st1 ns) as [[st2 fs2]|] eqn:E2; [|discriminate]. cbn [rbind fst snd] in E.
      injection E as <- <-. pose proof (IH _ _ _ E2) as F.
      assert (F1 : forall r, In r st1 -> In r st \/ rc_name r = s).
      { intros r Hr. unfold get_activation_func in E1. destruct (find_builtin builtin_names s).
        { injection E1 as <- <-. left. exact Hr. }
        unfold get_func_dynamic in E1. destruct (split_at s) as [[sy li]|]; [|injection E1 as <- <-; left; exact Hr].
        destruct (negb (lib_opens li)); [injection E1 as <- <-; left; exact Hr|].
        destruct (256 <? _); [discriminate|]. destruct (dlsym li sy) as [fo|]; [|injection E1 as <- <-; left; exact Hr].
        injection E1 as <- <-. apply in_app_or in Hr. destruct Hr as [Hr|[<- |[]]]; [left; exact Hr|right; reflexivity]. }
      eapply Forall_impl; [|exact F]. cbn. intros r [Hr|Hr]; [|right; right; exact Hr]. destruct (F1 r Hr) as [Q|Q]; [left; exact Q|right; left; congruence].
  Qed.

  (** the name under which a registered function is saved *)
  Lemma saved_name ns st fs f : lookups lib_opens dlsym [] ns = Ok (st, fs) -> In (Some f) fs ->
    let s := get_activation_name st f in
    named lib_opens dlsym s f /\ short_symbol lib_opens s /\ (In s ns \/ (length s <= 12 /\ s <> [] /\ ~ In nul s)).
  Proof.
    intros E I s. destruct (lookups_good lib_opens dlsym _ _ _ _ (Forall_nil _) E) as (G & _ & R). destruct (R f I) as [(a & ->)|EX].
    - assert (NA : ~ In "@"%char s /\ length s <= 12 /\ s <> [] /\ ~ In nul s /\ named lib_opens dlsym s (Builtin a)).
      { unfold s, get_activation_name. destruct a; cbn;
          (split; [intros Q; repeat (destruct Q as [Q|Q]; [discriminate|]); destruct Q|]); (split; [lia|]); (split; [discriminate|]);
          (split; [intros Q; repeat (destruct Q as [Q|Q]; [discriminate|]); destruct Q|]); constructor. }
      destruct NA as (N1 & N2 & N3 & N4 & N5). split; [exact N5|]. split; [|right; repeat split; assumption].
      intros sy li (EQ & _) _. exfalso. apply N1. rewrite EQ. apply in_or_app. right. left. reflexivity.
    - destruct (find_func st f EX) as (r & EF & IR & ER).
      pose proof G as G'. rewrite Forall_forall in G'. destruct (G' r IR) as (sy & li & fo & NS & LO & LN & DS & RF & _).
      assert (NB : exists n, f = Dyn n /\ fo = Some n). { rewrite ER in RF. destruct fo as [n|]; [|discriminate]. exists n. cbn in RF. split; congruence. }
      destruct NB as (n & -> & ->). assert (ES : s = rc_name r) by (unfold s, get_activation_name; rewrite EF; reflexivity). rewrite ES.
      split; [econstructor; eassumption|]. split.
      + intros sy' li' NS' LO'. assert (Q : split_at (rc_name r) = Some (sy', li')) by (apply split_at_spec; exact NS').
        apply split_at_spec in NS. rewrite NS in Q. injection Q as <- <-. exact LN.
      + left. pose proof (lookups_names _ _ _ _ E) as F. rewrite Forall_forall in F. destruct (F r IR) as [[]|Q]. exact Q.
  Qed.

  (** ** C47 *)
  (** saving, in a process that has registered its functions by the lookups ns, and loading the file, into any heap of
      any process, gives a network with the same sizes, parameters (bit by bit) and functions; saving leaves nothing
      behind, loading nothing but the network *)
  Theorem net_round_trip h st nn ds ns fs :
    (forall s, alloc s = true) -> (forall k s, mem k s = true) ->
    (forall s, Forall (fun c => nat_of_ascii c < 128) s -> utf8 s = true) ->
    lookups lib_opens dlsym [] ns = Ok (st, fs) -> Forall (fun d => In (Some (d_f d)) fs) ds ->
    Forall (fun s => s <> [] /\ ~ In "000"%char s /\ (Z.of_nat (length s) * Z.of_nat (length ds) < 2147483648)%Z) ns ->
    (Z.of_nat (length ds) < 178956970)%Z -> network ds -> net_has h ds nn ->
    exists h' ar, net_save alloc utf8 h st nn = Ok (h', Some ar)
      /\ (forall x, x < length h -> nth_error h' x = nth_error h x)
      /\ (forall x, length h <= x < length h' -> dead h' x)
      /\ forall h0 st0, exists h1 st1 nn1, net_load alloc mem lib_opens dlsym h0 st0 ar = Ok (h1, st1, Some nn1)
           /\ net_has h1 ds nn1 /\ cn_loss nn1 = None
           /\ (forall x, x < length h0 -> nth_error h1 x = nth_error h0 x)
           /\ (forall x, length h0 <= x < length h1 -> In x (net_blocks nn1) \/ dead h1 x)
           /\ (forall x, In x (net_blocks nn1) -> length h0 <= x).
  Proof.
    intros HA HM HU EL FR FN L12 ND NH. set (names := map (fun d => get_activation_name st (d_f d)) ds).
    assert (LNS : length names = length ds) by (unfold names; apply map_length).
    assert (LNS' : @length (list ascii) names = length ds) by exact LNS.
    assert (FS : Forall (fun d => let s := get_activation_name st (d_f d) in
        (named lib_opens dlsym s (d_f d) /\ short_symbol lib_opens s) /\ (s <> [] /\ ~ In nul s) /\ (Z.of_nat (length s) * Z.of_nat (length ds) < 2147483648)%Z) ds).
    { rewrite Forall_forall in *. intros d Hd. destruct (saved_name ns st fs (d_f d) EL (FR d Hd)) as (N1 & N2 & N3). cbv zeta.
      split; [split; assumption|]. destruct N3 as [Q|(Q1 & Q2 & Q3)].
      - destruct (FN _ Q) as (X1 & X2 & X3). repeat split; assumption.
      - repeat split; try assumption. nia. }
    assert (LON : forall (l : list bytes) (m : nat), (Z.of_nat m * Z.of_nat (length ds) < 2147483648)%Z ->
        Forall (fun s : bytes => (Z.of_nat (length s) * Z.of_nat (length ds) < 2147483648)%Z) l ->
        (Z.of_nat (fold_left (fun (m : nat) (s : bytes) => if (m <? length s)%nat then length s else m) l m) * Z.of_nat (length ds) < 2147483648)%Z).
    { induction l as [|s l IH]; intros m Hm F; [exact Hm|]. cbn [fold_left]. apply IH; [|exact (Forall_inv_tail F)].
      destruct (m <? length s); [exact (Forall_inv F)|exact Hm]. }
    destruct (save_core alloc utf8 HA HU h st nn ds names NH ND eq_refl) as (h' & ar & ES & O & D & _ & LD).
    { unfold names. apply Forall_map. eapply Forall_impl; [|exact FS]. cbn. tauto. }
    { rewrite LNS. apply LON; [lia|]. unfold names. apply Forall_map. eapply Forall_impl; [|exact FS]. cbn. tauto. }
    exists h', ar. split; [exact ES|]. split; [exact O|]. split; [exact D|]. intros h0 st0.
    destruct (LD h0) as (h1 & p & cs & s & L1 & L2 & L3 & L4 & L5 & L6 & L7).
    destruct (load_core alloc mem lib_opens dlsym HM h0 st0 ar h1 p cs ds s names (map reloaded (param_arrays ds)) [] L1 L2 L3 L4 L5) as (h2 & st2 & nn2 & Q1 & Q2 & Q3 & Q4 & Q5 & Q6 & _);
      try assumption.
    - rewrite app_nil_r. apply params_reloaded. apply ND.
    - lia.
    - lia.
    - lia.
    - unfold names. apply Forall_map. eapply Forall_impl; [|exact FS]. cbn. tauto.
    - rewrite <- LNS, firstn_all. unfold names.
      assert (FM : Forall (fun d => named lib_opens dlsym (get_activation_name st (d_f d)) (d_f d)) ds) by (eapply Forall_impl; [|exact FS]; cbn; tauto).
      clear -FM. induction FM as [|d l N F IH]; cbn [map]; constructor; [left; exact N|exact IH].
    - exists h2, st2, nn2. repeat (split; [assumption|]). assumption.
  Qed.

  (** ** C48 *)
  Lemma npy_stores_read content t elem dims data : (forall s, alloc s = true) -> npy_stores content t elem dims data ->
    (0 < elem)%Z -> length dims <= 7 -> positive dims -> (Z.of_nat (length data) = product dims * elem)%Z -> (product dims * elem < 9223372036854775808)%Z ->
    exists e, read_matrix alloc false content = Ok (Some (mk_npy data (dims ++ repeat 0%Z (8 - length dims)) (length dims) e t elem false false)).
  Proof.
    intros HA (minor & text & more & e & -> & HD & _ & L1 & L2) He HN HP F G. pose proof (product_pos _ HP) as PP. exists e.
    rewrite (read_body alloc false _ _ _ _ _ _ _ _ HD) by (first [assumption|lia|nia|apply product_bound; [exact HP|nia]]).
    rewrite HA. cbn [negb]. cbv zeta. rewrite HA. cbn [negb].
    rewrite count_ok by (try exact HP; unfold size_max1; nia). rewrite Z.mul_1_l.
    rewrite to_size_small by (unfold size_max1; nia). rewrite <- F.
    destruct (Z.leb_spec (Z.of_nat (length data)) (Z.of_nat (length (data ++ more)))) as [_|Q]; [|rewrite app_length in Q; lia].
    rewrite Nat2Z.id, firstn_app, firstn_all, Nat.sub_diag. cbn [firstn]. rewrite app_nil_r. reflexivity.
  Qed.

  (** the archive may be written by anyone; the array of names may be anywhere between the arrays of the parameters,
      and may have names to spare *)
  Theorem net_names_anywhere h0 st pre nm post ds names :
    (forall s, alloc s = true) -> (forall k s, mem k s = true) ->
    Forall (fun mb => plain (mb_name mb) /\ length (mb_name mb) <= 80) (pre ++ nm :: post) ->
    network ds -> stores_parameters ds (map mb_content (pre ++ post)) ->
    stores_names names (mb_content nm) -> length ds <= length names -> (Z.of_nat (length names) < 2147483648)%Z ->
    Forall (short_symbol lib_opens) names ->
    Forall2 (fun name d => function_for lib_opens dlsym (Some name) (d_f d)) (firstn (length ds) names) ds ->
    exists h' st' nn, net_load alloc mem lib_opens dlsym h0 st (pre ++ nm :: post) = Ok (h', st', Some nn)
      /\ net_has h' ds nn /\ cn_loss nn = None
      /\ (forall x, x < length h0 -> nth_error h' x = nth_error h0 x)
      /\ (forall x, length h0 <= x < length h' -> In x (net_blocks nn) \/ dead h' x)
      /\ (forall x, In x (net_blocks nn) -> length h0 <= x).
  Proof.
    intros HA HM HP ND SP (e & E1 & SN & FNM & LE) LN LNM SH FF. pose proof ND as (NE & DO & _ & _).
    assert (LNE : length names <> 0) by (destruct ds; [congruence|cbn in LN; lia]).
    (* the arrays that are read *)
    assert (RP : exists ms, Forall2 (fun mb m => read_matrix alloc false (mb_content mb) = Ok (Some m)) (pre ++ post) ms /\ parameter_arrays ds ms).
    { clear - HA SP DO. unfold stores_parameters, parameter_arrays in *. revert SP. generalize (pre ++ post) as l. induction DO as [|d ds H DO IH]; intros l SP; cbn [flat_map app] in *.
      - inversion SP as [Q|]; subst. destruct l; [|discriminate]. exists []. split; constructor.
      - destruct l as [|m1 [|m2 l]]; cbn [map] in SP; [inversion SP| inversion SP as [|? ? ? ? _ Q]; inversion Q|].
        inversion SP as [|? ? ? ? S1 SP1]; subst. inversion SP1 as [|? ? ? ? S2 SP2]; subst. cbn [fst snd] in S1, S2.
        destruct H as (H1 & H2 & H3 & H4 & H5). destruct (IH l SP2) as (ms & R1 & R2).
        destruct (npy_stores_read _ _ _ _ _ HA S1) as (e1 & X1); [lia|cbn; lia|repeat constructor; lia|unfold product; cbn [fold_right]; rewrite H4; ring|unfold product; cbn [fold_right]; nia|].
        destruct (npy_stores_read _ _ _ _ _ HA S2) as (e2 & X2); [lia|cbn; lia|repeat constructor; lia|unfold product; cbn [fold_right]; rewrite H5; ring|unfold product; cbn [fold_right]; nia|].
        eexists (_ :: _ :: ms). split; [constructor; [exact X1|constructor; [exact X2|exact R1]]|].
        constructor; [|constructor; [|exact R2]]; repeat split. }
    destruct RP as (ms & RM & PA).
    set (rows := flat_map (fun s => s ++ repeat "000"%char (e - length s)) names) in *.
    assert (LR : length rows = length names * e).
    { unfold rows. clear -FNM. induction FNM as [|s names (F1 & _) F2 IH]; [reflexivity|]. cbn [flat_map]. rewrite !app_length, repeat_length, IH. cbn [length]. lia. }
    destruct (npy_stores_read _ _ _ _ _ HA SN) as (e0 & RN); [lia|cbn; lia|repeat constructor; lia|unfold product; cbn [fold_right]; rewrite LR; nia|unfold product; cbn [fold_right]; nia|].
    match type of RN with _ = Ok (Some ?x) => set (s := x) in * end.
    apply Forall2_app_inv_l in RM. destruct RM as (m1 & m2 & R1 & R2 & ->).
    assert (ALL : Forall2 (fun mb m => read_matrix alloc false (mb_content mb) = Ok (Some m)) (pre ++ nm :: post) (m1 ++ s :: m2)).
    { apply Forall2_app; [exact R1|]. constructor; [exact RN|exact R2]. }
    destruct (load_members alloc (combine (pre ++ nm :: post) (m1 ++ s :: m2)) h0 None []) as (h1 & p & cs & EL & IL & NA & AR & O & LH & B).
    { split; constructor. }
    { clear -ALL HP HA. revert HP. induction ALL as [|mb m l l' R F IH]; intros HP; cbn [combine]; constructor.
      - cbn [fst snd]. split; [exact R|]. destruct (Forall_inv HP) as (Q1 & Q2). repeat split; try assumption. apply HA.
      - apply IH. exact (Forall_inv_tail HP). }
    { apply HA. }
    assert (LC : length (pre ++ nm :: post) = length (m1 ++ s :: m2)) by (eapply forall2_len; exact ALL).
    assert (MF : map fst (combine (pre ++ nm :: post) (m1 ++ s :: m2)) = pre ++ nm :: post).
    { revert LC. generalize (pre ++ nm :: post) as l, (m1 ++ s :: m2) as l'. clear. induction l as [|a l IH]; intros [|b l'] L; try discriminate; [reflexivity|]. cbn [combine map fst]. f_equal. apply IH. cbn in L. congruence. }
    assert (MS : map snd (combine (pre ++ nm :: post) (m1 ++ s :: m2)) = m1 ++ s :: m2).
    { revert LC. generalize (pre ++ nm :: post) as l, (m1 ++ s :: m2) as l'. clear. induction l as [|a l IH]; intros [|b l'] L; try discriminate; [reflexivity|]. cbn [combine map snd]. f_equal. apply IH. cbn in L. congruence. }
    rewrite MF in EL. rewrite MS in AR. cbn [app] in IL.
    destruct (load_core alloc mem lib_opens dlsym HM h0 st (pre ++ nm :: post) h1 p cs ds s names m1 m2 EL IL B) as (h2 & st2 & nn2 & Q1 & Q2 & Q3 & Q4 & Q5 & Q6 & _);
      try assumption.
    - intros x Hx. apply O; [exact Hx|]. intros [].
    - exists e. unfold s. cbn [np_type np_elem np_shape np_ndim np_fortran np_data app length]. repeat split. exact FNM.
    - unfold s. cbn [np_data]. rewrite LR. nia.
    - exists h2, st2, nn2. repeat (split; [assumption|]). assumption.
  Qed.

  (** ** C49 *)
  (** nothing in the archive can be read: NULL *)
  Theorem net_load_unreadable h st ar : Forall (fun mb => read_matrix alloc false (mb_content mb) = Ok None) ar ->
    net_load alloc mem lib_opens dlsym h st ar = Ok (h, st, None).
  Proof.
    intros F. unfold net_load, list_load. assert (E : load_loop alloc ar h None = Ok (h, None)).
    { induction F as [|mb ar R F IH]; [reflexivity|]. cbn [load_loop]. rewrite R. cbn [rbind]. exact IH. }
    rewrite E. reflexivity.
  Qed.

  (** an array of another type, behind arrays of floats: NULL, and everything has been freed *)
  Theorem net_load_other_type h0 st pre mb post ms m rest :
    (forall s, alloc s = true) -> (forall k s, mem k s = true) ->
    Forall (fun mb => plain (mb_name mb) /\ length (mb_name mb) <= 80) (pre ++ mb :: post) ->
    Forall2 (fun mb m => read_matrix alloc false (mb_content mb) = Ok (Some m)) (pre ++ mb :: post) (ms ++ m :: rest) -> length ms = length pre ->
    Forall (fun m => np_type m = "f"%char) ms -> np_type m <> "f"%char -> np_type m <> "S"%char ->
    (Z.of_nat (length (pre ++ mb :: post)) < 2305843009213693952)%Z ->
    exists h', net_load alloc mem lib_opens dlsym h0 st (pre ++ mb :: post) = Ok (h', st, None)
      /\ (forall x, x < length h0 -> nth_error h' x = nth_error h0 x) /\ (forall x, length h0 <= x < length h' -> dead h' x).
  Proof.
    intros HA HM HP ALL LM FT N1 N2 LB. set (ar := pre ++ mb :: post) in *. set (ll := ms ++ m :: rest) in *.
    destruct (load_members alloc (combine ar ll) h0 None []) as (h1 & p & cs & EL & IL & NA & AR & O & LH & B).
    { split; constructor. }
    { clearbody ar ll. clear -ALL HP HA. revert HP. induction ALL as [|mb' m' l l' R F IH]; intros HP; cbn [combine]; constructor.
      - cbn [fst snd]. split; [exact R|]. destruct (Forall_inv HP) as (Q1 & Q2). repeat split; try assumption. apply HA.
      - apply IH. exact (Forall_inv_tail HP). }
    { apply HA. }
    assert (LC : length ar = length ll) by (eapply forall2_len; exact ALL).
    assert (MF : map fst (combine ar ll) = ar).
    { revert LC. generalize ar as l, ll as l'. clear. induction l as [|a l IH]; intros [|b l'] L; try discriminate; [reflexivity|]. cbn [combine map fst]. f_equal. apply IH. cbn in L. congruence. }
    assert (MS : map snd (combine ar ll) = ll).
    { revert LC. generalize ar as l, ll as l'. clear. induction l as [|a l IH]; intros [|b l'] L; try discriminate; [reflexivity|]. cbn [combine map snd]. f_equal. apply IH. cbn in L. congruence. }
    rewrite MF in EL. rewrite MS in AR. cbn [app] in IL.
    unfold net_load, list_load. rewrite EL. cbn [rbind].
    assert (LCS : length cs = length ar). { rewrite LC. rewrite <- AR. unfold arrays_of. rewrite map_length. reflexivity. }
    pose proof IL as (HC & HND).
    destruct p as [q|]; [|exfalso; inversion HC; subst; cbn in LCS; unfold ar in LCS; rewrite app_length in LCS; cbn in LCS; lia].
    set (p := Some q) in *. pose proof (is_list_len _ _ _ IL) as LL.
    unfold list_length. rewrite (length_chain h1 p cs HC) by (unfold size_max1; lia). cbn [rbind].
    rewrite malloc_ok by apply HM. set (h2 := h1 ++ [_]). assert (L2 : length h2 = S (length h1)) by (unfold h2; apply app_len1).
    assert (C2 : chain h2 p cs).
    { eapply chain_frame; [exact HC|]. intros x Hx. unfold h2. apply app_old. eapply chain_lt; eassumption. }
    assert (SC : forall cs h p fuel wb ms m rest, chain h p cs -> arrays_of cs = ms ++ m :: rest -> Forall (fun m => np_type m = "f"%char) ms ->
              np_type m <> "f"%char -> np_type m <> "S"%char -> length cs < fuel ->
              exists wb', scan mem fuel h p wb None = Ok (h, wb', None, false)).
    { clear. induction cs as [|c cs IH]; intros h p fuel wb ms m rest HC AR FT N1 N2 LF; [destruct ms; discriminate|].
      destruct fuel as [|f]; [lia|]. inversion HC as [|? next ? H1 H2 H3 H4 HC' E1 E2]; subst. cbn [scan].
      rewrite (get_node_holds _ _ _ _ _ H1). cbn [rbind]. rewrite (get_arr_holds _ _ _ _ H2). cbn [rbind fst].
      destruct ms as [|m0 ms]; cbn [arrays_of map app] in AR.
      - assert (EM : c_m c = m) by congruence. rewrite EM.
        destruct (Ascii.eqb_spec (np_type m) "f"); [contradiction|]. destruct (Ascii.eqb_spec (np_type m) "S"); [contradiction|]. eexists. reflexivity.
      - assert (EM : c_m c = m0 /\ map c_m cs = ms ++ m :: rest) by (split; congruence). destruct EM as (EM & EM2). rewrite EM, (Forall_inv FT). cbn [Ascii.eqb Bool.eqb].
        eapply IH; [exact HC'|exact EM2|exact (Forall_inv_tail FT)|exact N1|exact N2|cbn in LF; lia]. }
    destruct (SC cs h2 p (S (length h2)) [] ms m rest C2 AR FT N1 N2 ltac:(lia)) as (wb & ESC). rewrite ESC. cbn [rbind negb].
    destruct (load_end_ok h2 p cs (length h1) None) as (h3 & EE & L3 & D3 & S3).
    { split; [exact C2|exact HND]. }
    { eexists. unfold holds, h2. apply app_new. }
    { intros Q. apply B in Q. lia. }
    { discriminate. }
    rewrite EE. cbn [rbind]. exists h3. split; [reflexivity|]. split.
    - intros x Hx. rewrite S3; [|intros Q; apply B in Q; lia|destruct (Nat.eq_dec x (length h1)); lia|discriminate].
      unfold h2. rewrite app_old by lia. apply O; [exact Hx|intros []].
    - intros x Hx. apply D3. rewrite B. lia.
  Qed.
End Props.
Print Assumptions net_round_trip.
Print Assumptions net_names_anywhere.
Print Assumptions net_load_unreadable.
Print Assumptions net_load_other_type.

(** ** examples *)
Definition yes (s : Z) : bool := true.
Definition ex_w : bytes := map ascii_of_nat [0; 0; 128; 63; 0; 0; 0; 192].
Definition ex_b : bytes := map ascii_of_nat [0; 0; 0; 63].
Definition ex_ds : list ndesc := [mk_ndesc 2 1 ex_w ex_b (Builtin Tanh); mk_ndesc 1 1 ex_b ex_b (Builtin Linear)]%Z.
Definition ex_net_heap : heap :=
  [Some (BMem []); Some (BMem []); Some (BMem (map Some ex_w)); Some (BMem (map Some ex_b)); Some (BMem (map Some ex_b)); Some (BMem (map Some ex_b))].
Definition ex_net : cnet :=
  mk_cnet 0 1 [mk_clayer 2 1 (FPtr 2) (FPtr 3) (Some (Builtin Tanh)); mk_clayer 1 1 (FPtr 4) (FPtr 5) (Some (Builtin Linear))]%Z None.

(** the hypotheses of net_round_trip can be met *)
Example net_round_trip_ex :
  lookups no_lib no_sym [] [txt "linear"; txt "tanh"] = Ok ([], [Some (Builtin Linear); Some (Builtin Tanh)])
  /\ Forall (fun d => In (Some (d_f d)) [Some (Builtin Linear); Some (Builtin Tanh)]) ex_ds
  /\ network ex_ds /\ net_has ex_net_heap ex_ds ex_net.
Proof.
  split; [reflexivity|]. split; [constructor; [right; left; reflexivity|constructor; [left; reflexivity|constructor]]|]. split.
  - split; [discriminate|]. split; [|cbn; lia]. repeat constructor; cbn; lia.
  - split; [|split; [|split]].
    + repeat constructor; eexists; (split; reflexivity).
    + eexists; reflexivity.
    + eexists; reflexivity.
    + cbn. repeat constructor; cbn; lia.
Qed.
(** and it can be computed *)
Example net_round_trip_run : exists h' ar h1 nn1, net_save yes (fun _ => true) ex_net_heap [] ex_net = Ok (h', Some ar)
  /\ map mb_name ar = map txt ["weight_0"; "bias_0"; "weight_1"; "bias_1"; "activations"]%string
  /\ net_load yes all_mem no_lib no_sym [] [] ar = Ok (h1, [], Some nn1) /\ net_has h1 ex_ds nn1.
Proof.
  do 4 eexists. split; [vm_compute; reflexivity|]. split; [reflexivity|]. split; [vm_compute; reflexivity|].
  split; [|split; [|split]].
  - repeat constructor; eexists; (split; reflexivity).
  - eexists; reflexivity.
  - eexists; reflexivity.
  - cbn. repeat constructor; cbn; lia.
Qed.

(** a function that has not been registered is saved as "(unknown)" and becomes linear *)
Example net_unregistered : exists h' ar h1 nn1,
  net_save yes (fun _ => true) ex_net_heap [] (mk_cnet 0 1 [mk_clayer 2 1 (FPtr 2) (FPtr 3) (Some (Dyn 7))]%Z None) = Ok (h', Some ar)
  /\ net_load yes all_mem no_lib no_sym [] [] ar = Ok (h1, [], Some nn1)
  /\ map cl_func (cn_layers nn1) = [Some (Builtin Linear)].
Proof. do 4 eexists. split; [vm_compute; reflexivity|]. split; vm_compute; reflexivity. Qed.

Definition ex_member (name : string) (m : npy) : member := mk_member (txt name) (npy_bytes m) cm_default.
Definition ex_floats (dims : list Z) (n : nat) : npy := builder (repeat "A"%char n) dims "f" 4.
Definition ex_strings (l : list string) (e : nat) : npy := builder (name_rows e (map txt l)) [Z.of_nat (length l)] "S" (Z.of_nat e).
Definition ex_weight := ex_member "weight_0" (ex_floats [2; 1]%Z 8).
Definition ex_bias := ex_member "bias_0" (ex_floats [1]%Z 4).
Definition ex_tanh := ex_member "activations" (ex_strings ["tanh"%string] 4).

(** the names first, in the middle and last *)
Example net_names_anywhere_ex :
  Forall (fun ar => exists h nn, net_load yes all_mem no_lib no_sym [] [] ar = Ok (h, [], Some nn)
                                 /\ net_has h [mk_ndesc 2 1 (repeat "A"%char 8) (repeat "A"%char 4) (Builtin Tanh)]%Z nn)
         [[ex_tanh; ex_weight; ex_bias]; [ex_weight; ex_tanh; ex_bias]; [ex_weight; ex_bias; ex_tanh]].
Proof.
  repeat constructor; do 2 eexists; (split; [vm_compute; reflexivity|]);
    (split; [repeat constructor; eexists; (split; reflexivity)|split; [eexists; reflexivity|split; [eexists; reflexivity|cbn; repeat constructor; cbn; lia]]]).
Qed.

(** archives of arrays that can all be read, and what loading them does *)
Definition malformed : list (list member * fault) :=
  [ ([ex_weight; ex_bias], BadPointer)                                             (* no names *)
  ; ([ex_tanh], Uninit)                                                            (* only names *)
  ; ([ex_weight; ex_bias; ex_member "weight_1" (ex_floats [1; 1]%Z 4); ex_tanh], AssertFailed)    (* a weight without bias *)
  ; ([ex_weight; ex_member "bias_0" (ex_floats [3]%Z 12); ex_tanh], OutOfBounds)                  (* too long a bias *)
  ; ([ex_member "weight_0" (builder (repeat "A"%char 4) [2; 1]%Z "f" 2); ex_bias; ex_tanh], OutOfBounds)  (* 16 bit floats *)
  ; ([ex_weight; ex_bias; ex_member "weight_1" (ex_floats [1; 1]%Z 4); ex_member "bias_1" (ex_floats [1]%Z 4); ex_tanh], OutOfBounds)  (* a name is missing *)
  ; ([ex_weight; ex_bias; ex_member "activations" (builder (txt "tanh") []%Z "S" 4)], OutOfBounds)  (* a string instead of an array of strings *)
  ; ([ex_weight; ex_member "bias_0" (ex_floats [1]%Z 4); ex_member "weight_1" (ex_floats [3; 1]%Z 12); ex_member "bias_1" (ex_floats [1]%Z 4);
      ex_member "activations" (ex_strings ["tanh"; "tanh"]%string 4)], OutOfBounds)                 (* shapes do not match *)
  ; ([ex_member "weight_0" (mk_npy (repeat "A"%char 8) [2; 1; 0; 0; 0; 0; 0; 0]%Z 2 "<" "f" 4 true false); ex_bias; ex_tanh], AssertFailed) ].  (* Fortran order *)
Theorem net_load_malformed_refuted :
  Forall (fun x => net_load yes all_mem no_lib no_sym [] [] (fst x) = Fault (snd x)
                   /\ Forall (fun mb => exists m, read_matrix yes false (mb_content mb) = Ok (Some m)) (fst x)) malformed.
Proof.
  unfold malformed. repeat (apply Forall_cons; [split; [vm_compute; reflexivity|cbn [fst]; repeat (apply Forall_cons; [eexists; vm_compute; reflexivity|]); apply Forall_nil]|]). apply Forall_nil.
Qed.
Print Assumptions net_load_malformed_refuted.

(** big-endian and 64 bit floats are taken for little-endian 32 bit floats *)
Theorem net_load_values_refuted :
  Forall (fun w => exists h nn, net_load yes all_mem no_lib no_sym [] [] [ex_member "weight_0" w; ex_bias; ex_tanh] = Ok (h, [], Some nn)
                   /\ net_has h [mk_ndesc 2 1 (firstn 8 (np_data w)) (repeat "A"%char 4) (Builtin Tanh)]%Z nn)
         [mk_npy ex_w [2; 1; 0; 0; 0; 0; 0; 0]%Z 2 ">" "f" 4 false false; mk_npy (ex_w ++ ex_w) [2; 1; 0; 0; 0; 0; 0; 0]%Z 2 "<" "f" 8 false false].
Proof.
  repeat constructor; do 2 eexists; (split; [vm_compute; reflexivity|]);
    (split; [repeat constructor; eexists; (split; reflexivity)|split; [eexists; reflexivity|split; [eexists; reflexivity|cbn; repeat constructor; cbn; lia]]]).
Qed.
Print Assumptions net_load_values_refuted.

(** the hypotheses of net_load_other_type can be met *)
Example net_load_other_type_ex : exists h', net_load yes all_mem no_lib no_sym [] []
  [ex_weight; ex_member "bias_0" (builder (repeat "A"%char 4) [1]%Z "i" 4); ex_tanh] = Ok (h', [], None) /\ Forall (fun b => b = None) h'.
Proof. eexists. split; [vm_compute; reflexivity|repeat constructor]. Qed.

(** the hypotheses of net_names_anywhere can be met *)
Definition ex_names_text : bytes := txt "{'descr': '|S4', 'fortran_order': False, 'shape': (1,), }" ++ [newline].
Example stores_names_ex : stores_names [txt "tanh"] (npy_file "000" ex_names_text (txt "tanh")).
Proof.
  exists 4. split; [lia|]. split; [|split; [repeat constructor; cbn; try lia; intros Q; repeat (destruct Q as [Q|Q]; [discriminate|]); destruct Q|cbn; lia]].
  exists "000"%char, ex_names_text, [], "|"%char. split; [reflexivity|]. split; [|split; [discriminate|split; vm_compute; lia]].
  exists (txt "4"), (txt "1,"), (txt ", }" ++ [newline]). split; [reflexivity|]. split; [left; repeat split; [lia|discriminate]|].
  split.
  { apply (shape_dim 1 [] [] (txt "1") (txt ",")).
    - constructor.
    - cbn; lia.
    - left. repeat split; [cbn; lia|discriminate].
    - cbn. unfold a_digit. cbn. lia.
    - constructor. repeat constructor; try discriminate; unfold a_digit; cbn; lia. }
  split; [right; right; left; reflexivity|]. split; [discriminate|]. repeat constructor; discriminate.
Qed.
