(** Prop_OptCreate.v -- C59, C60: creating and freeing optimizers, and the metrics they report. *)
From Coq Require Import ZArith Bool String Ascii List Lia.
From Verif Require Import Base BaseProofs Activation Logger Npy NpyList SpecList ListProofs Registry Create SpecCreate CreateProofs
  Prop_Create Loss Names Evaluate OptCreate SpecOptCreate.
Import ListNotations.
Local Open Scope nat_scope.

(** ** lemmas *)
Definition zero_mem (size : Z) : option block := Some (BMem (repeat (Some nul) (Z.to_nat size))).
Lemma set_last {A} (h : list A) x y : set_nth (h ++ [x]) (length h) y = h ++ [y].
Proof. induction h as [|z h IH]; [reflexivity|]. cbn. f_equal. exact IH. Qed.
Lemma set_old {A} (h t : list A) i y : i < length h -> set_nth (h ++ t) i y = set_nth h i y ++ t.
Proof. revert i. induction h as [|z h IH]; intros [|i] L; cbn in *; try lia; [reflexivity|]. f_equal. apply IH. lia. Qed.

Section Alloc.
  Variable mem : nat -> Z -> bool.
  Lemma memset_new h size : (0 <= size)%Z -> memset0 (h ++ [new_mem size]) (length h) size = Ok (h ++ [zero_mem size]).
  Proof.
    intros H. unfold memset0, h_get. rewrite app_new. unfold new_mem at 1. cbn [rbind]. rewrite repeat_length.
    destruct (Z.leb_spec size (Z.of_nat (Z.to_nat size))); [|lia].
    rewrite skipn_all2 by (rewrite repeat_length; lia). rewrite app_nil_r, set_last. reflexivity.
  Qed.
  Lemma array_zero_ok h size : (0 <= size)%Z -> mem (length h) size = true -> array_zero mem h size = Ok (h ++ [zero_mem size], length h).
  Proof. intros H E. unfold array_zero, array_new. rewrite malloc_ok by exact E. cbn [rbind fst snd]. rewrite memset_new by exact H. reflexivity. Qed.

  Lemma init_ok k h ls n : total_params ls 0 = Ok n -> (0 <= n < 4294967296)%Z ->
    (forall i s, length h <= i < length h + n_arrays k -> mem i s = true) ->
    optimizer_init mem k h ls = Ok (h ++ repeat (zero_mem (n * 4)) (n_arrays k), seq (length h) (n_arrays k)).
  Proof.
    intros E N HM. unfold optimizer_init. rewrite E. cbn [rbind].
    assert (TS : to_size (n * 4) = (n * 4)%Z) by (unfold to_size, size_max1; apply Z.mod_small; lia). rewrite TS.
    destruct k; cbn [n_arrays] in *.
    - rewrite array_zero_ok by (try apply HM; lia). reflexivity.
    - rewrite array_zero_ok by (try apply HM; lia). cbn [rbind fst snd]. rewrite array_zero_ok by (try apply HM; rewrite ?app_len1; lia).
      cbn [rbind fst snd]. rewrite app_len1, <- app_assoc. reflexivity.
    - rewrite array_zero_ok by (try apply HM; lia). reflexivity.
    - rewrite malloc_ok by (apply HM; lia). rewrite malloc_ok by (apply HM; rewrite app_len1; lia).
      assert (M1 : memset0 ((h ++ [new_mem (n * 4)]) ++ [new_mem (n * 4)]) (length h) (n * 4) = Ok ((h ++ [zero_mem (n * 4)]) ++ [new_mem (n * 4)])).
      { unfold memset0, h_get. rewrite nth_error_app1 by (rewrite app_len1; lia). rewrite app_new. unfold new_mem at 1. cbn [rbind]. rewrite repeat_length.
        destruct (Z.leb_spec (n * 4) (Z.of_nat (Z.to_nat (n * 4)))); [|lia].
        rewrite skipn_all2 by (rewrite repeat_length; lia). rewrite app_nil_r, set_old by (rewrite app_len1; lia). rewrite set_last. reflexivity. }
      rewrite M1. cbn [rbind]. rewrite !app_len1.
      replace (S (length h)) with (length (h ++ [zero_mem (n * 4)])) by (rewrite app_len1; reflexivity).
      rewrite memset_new by lia. cbn [rbind]. rewrite app_len1, <- app_assoc. reflexivity.
  Qed.
End Alloc.

Lemma metric_name l : get_metric_func (get_loss_name l) = Some (metric_for l).
Proof. destruct l; reflexivity. Qed.

Lemma check_ok st o l : ro_loss o = Some l -> (0 < ro_batchsize o)%Z ->
  check_sanity st o = Ok ([Some (metric_for l); None],
    match ro_metrics o with
    | MNull => mk_ropt (ro_kind o) (ro_self o) (ro_arrays o) (ro_loss o) (ro_batchsize o) MStatic (ro_pivot o)
    | _ => o
    end).
Proof. intros E B. unfold check_sanity. rewrite E, metric_name. destruct (Z.ltb_spec 0 (ro_batchsize o)); [reflexivity|lia]. Qed.

(** the network a constructor gets: its number of parameters is n *)
Definition net_of (h : heap) (sizes : list Z) (nn : cnet) (n : Z) : Prop :=
  is_net h sizes nn /\ Forall (fun s => 1 <= fst s /\ 1 <= snd s /\ (fst s + 1) * snd s < 2147483648)%Z (steps sizes)
  /\ n = parameters (steps sizes) /\ (n < 4294967296)%Z.
Lemma parameters_pos ss : Forall (fun s => 1 <= fst s /\ 1 <= snd s /\ (fst s + 1) * snd s < 2147483648)%Z ss -> (0 <= parameters ss)%Z.
Proof. induction 1 as [|s ss H F IH]; cbn [parameters]; [lia|]. nia. Qed.
Lemma net_params h sizes nn n : net_of h sizes nn n -> total_params (cn_layers nn) 0 = Ok n /\ (0 <= n < 4294967296)%Z.
Proof.
  intros (I & F & -> & B). pose proof (parameters_pos _ F). rewrite (total_params_exact_partial _ _ _ I F).
  rewrite Z.mod_small by lia. split; [reflexivity|lia].
Qed.

(** ** C60 *)
(** with memory, a loss and a positive batch size: an optimizer whose arrays are zero, in new blocks *)
Theorem optimizer_new_ok mem k h st h0 sizes nn n l (c : oconf) :
  net_of h0 sizes nn n -> (1 <= oc_batchsize c)%Z -> (forall i s, mem i s = true) ->
  exists h' st' o, optimizer_new mem k h st (cn_layers nn) (Some l) c = Ok (h', st', Some o)
    /\ is_new_opt h' n o /\ ro_kind o = k /\ ro_batchsize o = oc_batchsize c
    /\ (forall x, In x (opt_blocks o) <-> length h <= x < length h')
    /\ (forall x, x < length h -> nth_error h' x = nth_error h x).
Proof.
  intros NO B HM. destruct (net_params _ _ _ _ NO) as (TP & N). unfold optimizer_new.
  rewrite malloc_ok by apply HM. rewrite (init_ok mem k _ _ n TP N) by (intros; apply HM). cbn [rbind fst snd].
  rewrite (check_ok _ _ l); [|reflexivity|cbn; lia]. cbn [rbind fst snd].
  eexists. eexists. eexists. split; [reflexivity|]. cbn [ro_metrics].
  set (h1 := h ++ [_]). assert (L1 : length h1 = S (length h)) by (unfold h1; apply app_len1).
  set (h' := h1 ++ _). assert (LH : length h' = S (length h) + n_arrays k) by (unfold h'; rewrite app_length, repeat_length, L1; reflexivity).
  assert (X : forall mf, let o := mk_ropt k (length h) (seq (length h1) (n_arrays k)) (Some l) (oc_batchsize c) mf None in
    is_new_opt h' n o /\ ro_kind o = k /\ ro_batchsize o = oc_batchsize c /\ (forall x, In x (opt_blocks o) <-> length h <= x < length h')
    /\ (forall x, x < length h -> nth_error h' x = nth_error h x)).
  { intros mf o. assert (BL : forall x, In x (opt_blocks o) <-> length h <= x < length h').
    { intros x. unfold opt_blocks, o. cbn [ro_self ro_arrays ro_pivot]. rewrite app_nil_r. cbn [In]. rewrite in_seq, L1, LH. lia. }
    split; [|split; [reflexivity|split; [reflexivity|split; [exact BL|]]]].
    - split; [|split; [|split; [|split]]].
      + unfold o. cbn [ro_arrays ro_kind]. apply seq_length.
      + unfold o. cbn [ro_arrays]. apply Forall_forall. intros a Ha. apply in_seq in Ha.
        exists (repeat (Some nul) (Z.to_nat (n * 4))). split; [|split].
        * unfold holds, h'. rewrite nth_error_app2 by lia. rewrite nth_error_repeat by lia. reflexivity.
        * rewrite repeat_length. lia.
        * apply Forall_forall. intros b Hb. apply repeat_spec in Hb. exact Hb.
      + unfold o. cbn [ro_self]. eexists. unfold holds, h', h1. rewrite nth_error_app1 by (rewrite app_len1; lia). apply app_new.
      + reflexivity.
      + unfold opt_blocks, o. cbn [ro_self ro_arrays ro_pivot]. rewrite app_nil_r. constructor; [|apply seq_NoDup].
        intros Q. apply in_seq in Q. lia.
    - intros x Hx. unfold h', h1. rewrite nth_error_app1 by (rewrite app_len1; lia). apply app_old. exact Hx. }
  destruct (oc_metrics c); apply X.
Qed.
Print Assumptions optimizer_new_ok.

(** a network without a loss, or a batch size below 1: the assertion fails; the optimizer is not returned *)
Theorem optimizer_new_rejects mem k h st h0 sizes nn n lf (c : oconf) :
  net_of h0 sizes nn n -> (forall i s, mem i s = true) -> lf = None \/ (oc_batchsize c < 1)%Z ->
  optimizer_new mem k h st (cn_layers nn) lf c = Fault AssertFailed.
Proof.
  intros NO HM H. destruct (net_params _ _ _ _ NO) as (TP & N). unfold optimizer_new.
  rewrite malloc_ok by apply HM. rewrite (init_ok mem k _ _ n TP N) by (intros; apply HM). cbn [rbind fst snd].
  unfold check_sanity. cbn [ro_loss ro_batchsize]. destruct lf as [l|]; [|reflexivity]. destruct H as [H|H]; [discriminate|].
  destruct (Z.ltb_spec 0 (oc_batchsize c)); [lia|reflexivity].
Qed.
Print Assumptions optimizer_new_rejects.

(** allocation number i of the constructor fails: NULL and nothing changed for the struct, an abort for an array *)
Theorem optimizer_new_no_memory mem k h st h0 sizes nn n lf (c : oconf) i :
  net_of h0 sizes nn n -> i <= n_arrays k ->
  (forall j s, length h <= j < length h + i -> mem j s = true) -> (forall s, mem (length h + i) s = false) ->
  optimizer_new mem k h st (cn_layers nn) lf c = if i =? 0 then Ok (h, st, None) else Fault AssertFailed.
Proof.
  intros NO I HM HF. destruct (net_params _ _ _ _ NO) as (TP & N). unfold optimizer_new.
  destruct (Nat.eqb_spec i 0) as [-> |I0].
  { rewrite malloc_fail by (rewrite <- (Nat.add_0_r (length h)); apply HF). reflexivity. }
  rewrite malloc_ok by (apply HM; lia). unfold optimizer_init. rewrite TP. cbn [rbind].
  assert (TS : to_size (n * 4) = (n * 4)%Z) by (unfold to_size, size_max1; apply Z.mod_small; lia). rewrite TS.
  assert (F1 : i = 1 -> forall s, mem (length (h ++ [new_mem (sizeof_opt k)])) s = false).
  { intros -> s. rewrite app_len1, <- Nat.add_1_r. apply HF. }
  assert (AF : i = 1 -> array_zero mem (h ++ [new_mem (sizeof_opt k)]) (n * 4) = Fault AssertFailed).
  { intros E. unfold array_zero, array_new. rewrite malloc_fail by (apply F1; exact E). reflexivity. }
  destruct k; cbn [n_arrays] in *.
  - rewrite AF by lia. reflexivity.
  - destruct (Nat.eq_dec i 1) as [E|E]; [rewrite AF by exact E; reflexivity|]. assert (i = 2) as -> by lia.
    rewrite array_zero_ok by (try apply HM; rewrite ?app_len1; lia). cbn [rbind fst snd].
    unfold array_zero, array_new. rewrite malloc_fail; [reflexivity|]. rewrite !app_len1. replace (S (S (length h))) with (length h + 2) by lia. apply HF.
  - rewrite AF by lia. reflexivity.
  - destruct (Nat.eq_dec i 1) as [E|E].
    + rewrite malloc_fail by (apply F1; exact E). destruct (malloc mem _ (n * 4)). reflexivity.
    + assert (i = 2) as -> by lia. rewrite malloc_ok by (apply HM; rewrite app_len1; lia).
      rewrite malloc_fail; [reflexivity|]. rewrite !app_len1. replace (S (S (length h))) with (length h + 2) by lia. apply HF.
Qed.
Print Assumptions optimizer_new_no_memory.

Lemma free_all_ok l : forall h, (forall x, In x l -> live h x) -> NoDup l ->
  exists h', free_all h l = Ok h' /\ length h' = length h /\ (forall x, In x l -> dead h' x) /\ (forall x, ~ In x l -> nth_error h' x = nth_error h x).
Proof.
  induction l as [|a l IH]; intros h LV ND.
  - exists h. split; [reflexivity|]. split; [reflexivity|]. split; [intros x []|reflexivity].
  - inversion ND as [|? ? N1 N2]; subst. cbn [free_all]. pose proof (LV a (or_introl eq_refl)) as LA. rewrite (live_free _ _ LA). cbn [rbind].
    destruct (IH (set_nth h a None)) as (h' & E & L & D & S); [|exact N2|].
    { intros x Hx. apply (live_same h); [apply set_other; intros ->; exact (N1 Hx)|apply LV; right; exact Hx]. }
    exists h'. split; [exact E|]. split; [rewrite L; apply length_set_nth|]. split.
    + intros x [<-|Hx]; [|apply D; exact Hx]. unfold dead. rewrite S by exact N1. apply set_same. apply live_lt. exact LA.
    + intros x Hx. rewrite S by (intros Q; apply Hx; right; exact Q). apply set_other. intros E1. apply Hx. left. exact E1.
Qed.
Lemma free_all_app l l' : forall h, free_all h (l ++ l') = rbind (free_all h l) (fun h => free_all h l').
Proof. induction l as [|a l IH]; intros h; [reflexivity|]. cbn [app free_all]. destruct (h_free h a); [apply IH|reflexivity]. Qed.
Lemma optimizer_free_list h o : optimizer_free h o = free_all h (ro_arrays o ++ match ro_pivot o with Some p => [p] | None => [] end ++ [ro_self o]).
Proof.
  unfold optimizer_free. rewrite free_all_app. destruct (free_all h (ro_arrays o)) as [h1|]; [|reflexivity]. cbn [rbind].
  destruct (ro_pivot o) as [p|]; cbn [app free_all rbind].
  - destruct (h_free h1 p) as [h2|]; [|reflexivity]. cbn [rbind]. destruct (h_free h2 (ro_self o)); reflexivity.
  - destruct (h_free h1 (ro_self o)); reflexivity.
Qed.

(** freeing an optimizer, with or without a sample order, frees each of its blocks once and nothing else *)
Theorem optimizer_free_all h o : (forall x, In x (opt_blocks o) -> live h x) -> NoDup (opt_blocks o) ->
  exists h', optimizer_free h o = Ok h' /\ (forall x, In x (opt_blocks o) -> dead h' x)
    /\ (forall x, ~ In x (opt_blocks o) -> nth_error h' x = nth_error h x).
Proof.
  intros LV ND. rewrite optimizer_free_list. set (l := ro_arrays o ++ _ ++ _).
  assert (EQ : forall x, In x l <-> In x (opt_blocks o)).
  { intros x. unfold l, opt_blocks. cbn [In]. rewrite !in_app_iff. cbn [In]. tauto. }
  assert (NL : NoDup l).
  { unfold l. rewrite app_assoc. unfold opt_blocks in ND. inversion ND as [|? ? N1 N2]; subst. apply nodup_app. split; [exact N2|].
    split; [constructor; [intros []|constructor]|]. intros x Hx [<-|[]]. exact (N1 Hx). }
  destruct (free_all_ok l h) as (h' & E & _ & D & S); [intros x Hx; apply LV; apply EQ; exact Hx|exact NL|].
  exists h'. split; [exact E|]. split; intros x Hx; [apply D|apply S]; rewrite EQ; exact Hx.
Qed.
Print Assumptions optimizer_free_all.

(** an optimizer that is made and freed leaves nothing behind and everything else as it was *)
Theorem optimizer_new_free mem k h st h0 sizes nn n l (c : oconf) :
  net_of h0 sizes nn n -> (1 <= oc_batchsize c)%Z -> (forall i s, mem i s = true) ->
  exists h1 st1 o h2, optimizer_new mem k h st (cn_layers nn) (Some l) c = Ok (h1, st1, Some o) /\ optimizer_free h1 o = Ok h2
    /\ (forall x, x < length h -> nth_error h2 x = nth_error h x) /\ (forall x, length h <= x -> ~ live h2 x).
Proof.
  intros NO B HM. destruct (optimizer_new_ok mem k h st h0 sizes nn n l c NO B HM) as (h1 & st1 & o & E & IO & _ & _ & BL & OLD).
  destruct IO as (_ & FA & LS & PV & ND). destruct (optimizer_free_all h1 o) as (h2 & E2 & D & S); [|exact ND|].
  { intros x Hx. unfold opt_blocks in Hx. rewrite PV, app_nil_r in Hx. destruct Hx as [<-|Hx]; [exact LS|].
    rewrite Forall_forall in FA. destruct (FA _ Hx) as (b & Hb & _). exists (BMem b). exact Hb. }
  exists h1, st1, o, h2. split; [exact E|]. split; [exact E2|]. split.
  - intros x Hx. rewrite S; [apply OLD; exact Hx|]. rewrite BL. lia.
  - intros x Hx (b & LV). destruct (lt_dec x (length h1)) as [L|L].
    + assert (DX : dead h2 x) by (apply D, BL; lia). unfold dead in DX. unfold holds in LV. congruence.
    + unfold holds in LV. rewrite S in LV by (rewrite BL; lia).
      rewrite (proj2 (nth_error_None h1 x)) in LV by lia. discriminate.
Qed.
Print Assumptions optimizer_new_free.

(** ** C59 *)
(** right after its creation an optimizer reports the metrics it was given, or else the metric of its loss *)
Theorem metrics_after_creation mem k h st ls lf (c : oconf) h' st' o :
  optimizer_new mem k h st ls lf c = Ok (h', st', Some o) ->
  exists l, lf = Some l /\
    reports st' o (match oc_metrics c with Some ms => ms | None => [Some (metric_for l); None] end).
Proof.
  unfold optimizer_new. destruct (malloc mem h (sizeof_opt k)) as [h1 [self|]]; [|discriminate].
  destruct (optimizer_init mem k h1 ls) as [r|]; [|discriminate]. cbn [rbind].
  destruct lf as [l|]; [|discriminate]. unfold check_sanity. cbn [ro_loss ro_batchsize]. rewrite metric_name.
  destruct (0 <? oc_batchsize c)%Z; [|discriminate]. cbn [rbind fst snd]. intros E. injection E as <- <- <-. exists l. split; [reflexivity|].
  destruct (oc_metrics c); reflexivity.
Qed.
Print Assumptions metrics_after_creation.

Lemma new_fields mem k h st ls lf (c : oconf) h' st' o : optimizer_new mem k h st ls lf c = Ok (h', st', Some o) ->
  exists l, lf = Some l /\ st' = [Some (metric_for l); None] /\ ro_metrics o = match oc_metrics c with Some ms => MUser ms | None => MStatic end.
Proof.
  unfold optimizer_new. destruct (malloc mem h (sizeof_opt k)) as [h1 [self|]]; [|discriminate].
  destruct (optimizer_init mem k h1 ls) as [r|]; [|discriminate]. cbn [rbind].
  destruct lf as [l|]; [|discriminate]. unfold check_sanity. cbn [ro_loss ro_batchsize]. rewrite metric_name.
  destruct (0 <? oc_batchsize c)%Z; [|discriminate]. cbn [rbind fst snd]. intros E. injection E as <- <- <-. exists l. split; [reflexivity|].
  split; [reflexivity|]. destruct (oc_metrics c); reflexivity.
Qed.

Lemma optimizers_cons mem h st k ls lf c js :
  optimizers_new mem h st ((k, ls, lf, c) :: js) = rbind (optimizer_new mem k h st ls lf c) (fun x =>
    match x with (h1, st1, o) => rbind (optimizers_new mem h1 st1 js) (fun y => match y with (h2, st2, os) => Ok (h2, st2, o :: os) end) end).
Proof. reflexivity. Qed.

(** what optimizers made in one process report in the end: those with metrics of their own these, the others
    the metric of the loss of the LAST optimizer that was made *)
Theorem metrics_last_created mem : forall js h st h' st' os,
  optimizers_new mem h st js = Ok (h', st', os) -> Forall (fun o => o <> None) os -> js <> [] ->
  exists k ls l c, last js (K_SGD, [], None, mk_oconf 0 None) = (k, ls, Some l, c) /\
    Forall2 (fun j o => exists o', o = Some o' /\
      reports st' o' (match oc_metrics (snd j) with Some ms => ms | None => [Some (metric_for l); None] end)) js os.
Proof.
  induction js as [|[[[k ls] lf] c] js IH]; intros h st h' st' os E FN NE; [congruence|]. rewrite optimizers_cons in E.
  destruct (optimizer_new mem k h st ls lf c) as [[[h1 st1] o]|] eqn:E1; [|discriminate]. cbn [rbind] in E.
  destruct (optimizers_new mem h1 st1 js) as [[[h2 st2] os2]|] eqn:E2; [|discriminate]. cbn [rbind] in E. injection E as <- <- <-.
  pose proof (Forall_inv FN) as O1. apply Forall_inv_tail in FN. destruct o as [o|]; [|congruence].
  destruct (new_fields _ _ _ _ _ _ _ _ _ _ E1) as (l & -> & S1 & MF).
  destruct js as [|j js].
  - cbn [optimizers_new] in E2. injection E2 as <- <- <-. exists k, ls, l, c. split; [reflexivity|]. constructor; [|constructor].
    exists o. split; [reflexivity|]. unfold reports. rewrite MF, S1. cbn [snd]. destruct (oc_metrics c); reflexivity.
  - destruct (IH h1 st1 h2 st2 os2 E2 FN ltac:(discriminate)) as (k' & ls' & l' & c' & EL & F).
    exists k', ls', l', c'. split; [exact EL|]. constructor; [|exact F]. exists o. split; [reflexivity|].
    assert (S2 : st2 = [Some (metric_for l'); None]).
    { clear -E2 EL FN. revert h1 st1 os2 E2 FN EL. generalize dependent j. induction js as [|j' js IH]; intros [[[k0 ls0] lf0] c0] h1 st1 os2 E2 FN EL.
      - cbn [last] in EL. injection EL as -> -> -> ->. cbn [optimizers_new] in E2.
        destruct (optimizer_new mem k' h1 st1 ls' (Some l') c') as [[[h3 st3] o]|] eqn:E3; [|discriminate]. cbn [rbind] in E2. injection E2 as <- <- <-.
        pose proof (Forall_inv FN) as O. destruct o as [o|]; [|congruence]. destruct (new_fields _ _ _ _ _ _ _ _ _ _ E3) as (l & EQ & S & _). injection EQ as <-. exact S.
      - rewrite optimizers_cons in E2. destruct (optimizer_new mem k0 h1 st1 ls0 lf0 c0) as [[[h3 st3] o]|]; [|discriminate]. cbn [rbind] in E2.
        destruct (optimizers_new mem h3 st3 (j' :: js)) as [[[h4 st4] os4]|] eqn:E4; [|discriminate]. cbn [rbind] in E2. injection E2 as <- <- <-.
        apply Forall_inv_tail in FN. exact (IH j' h3 st3 os4 E4 FN EL). }
    unfold reports. rewrite MF, S2. cbn [snd]. destruct (oc_metrics c); reflexivity.
Qed.
Print Assumptions metrics_last_created.

(** the metrics of optimizers whose networks all have the same loss *)
Theorem metrics_own_partial mem js h st h' st' os l :
  optimizers_new mem h st js = Ok (h', st', os) -> Forall (fun o => o <> None) os ->
  Forall (fun j => snd (fst j) = Some l) js ->
  Forall2 (fun j o => exists o', o = Some o' /\
    reports st' o' (match oc_metrics (snd j) with Some ms => ms | None => [Some (metric_for l); None] end)) js os.
Proof.
  intros E FN FL. destruct js as [|j js].
  - cbn [optimizers_new] in E. injection E as <- <- <-. constructor.
  - destruct (metrics_last_created mem _ _ _ _ _ _ E FN ltac:(discriminate)) as (k & ls & l' & c & EL & F).
    assert (Q : In (last (j :: js) (K_SGD, [], None, mk_oconf 0 None)) (j :: js)).
    { clear. revert j. induction js as [|j' js IH]; intros j; [left; reflexivity|]. right. apply IH. }
    rewrite Forall_forall in FL. specialize (FL _ Q). rewrite EL in FL. cbn in FL. injection FL as ->. exact F.
Qed.
Print Assumptions metrics_own_partial.

(** ** cases *)
Definition ex_layers : list clayer := [mk_clayer 2 3 (FPtr 0) (FPtr 1) None; mk_clayer 3 1 (FPtr 2) (FPtr 3) None].
Definition ex_conf (ms : option (list (option metric))) : oconf := mk_oconf 32 ms.

(** REFUTED: an optimizer for mean squared error, then one for another network with binary crossentropy that has metrics of
    its own: the first reports binary crossentropy *)
Theorem metrics_own_refuted : exists js h' st' o os,
  optimizers_new all_mem [] statics0 js = Ok (h', st', Some o :: os)
  /\ (exists k ls c js', js = (k, ls, Some MSE, c) :: js' /\ oc_metrics c = None)
  /\ reports st' o [Some M_BCE; None].
Proof.
  exists [(K_SGD, ex_layers, Some MSE, ex_conf None); (K_Adam, ex_layers, Some BCE, ex_conf (Some [Some M_BinAcc; None]))].
  eexists. eexists. eexists. eexists. split; [vm_compute; reflexivity|]. split; [|reflexivity].
  eexists. eexists. eexists. eexists. split; reflexivity.
Qed.
Print Assumptions metrics_own_refuted.
(** a network as neuralnet_create makes it, and its 13 parameters *)
Example net_of_ex : exists h nn, create all_mem no_lib no_sym [] [] 2 ex_sizes (Some ex_names) = Ok (h, [], Some nn) /\ net_of h ex_sizes nn 13.
Proof.
  destruct (create_network all_mem no_lib no_sym [] [] 2 ex_sizes ex_names) as (h & st & nn & E & I & _); try reflexivity; try lia.
  - split; repeat constructor; cbn; lia.
  - apply Forall_forall. intros o _ s _ sy li _ Q. discriminate.
  - exists h, nn. change (Z.of_nat 2) with 2%Z in E.
    assert (ST : st = []) by (vm_compute in E; injection E as _ <- _; reflexivity). rewrite ST in E. split; [exact E|].
    split; [exact I|]. split; [repeat constructor; cbn; lia|]. split; reflexivity.
Qed.
Example adam_new_ex : exists h o, optimizer_new all_mem K_Adam [] statics0 ex_layers (Some CCE) (ex_conf None) = Ok (h, [Some M_CCE; None], Some o)
  /\ ro_arrays o = [1; 2] /\ length h = 3 /\ reports [Some M_CCE; None] o [Some M_CCE; None]
  /\ optimizer_free h o = Ok [None; None; None].
Proof. eexists. eexists. split; [vm_compute; reflexivity|]. split; [reflexivity|]. split; [reflexivity|]. split; vm_compute; reflexivity. Qed.
Example new_no_loss_ex : optimizer_new all_mem K_SGD [] statics0 ex_layers None (ex_conf None) = Fault AssertFailed.
Proof. vm_compute. reflexivity. Qed.
Example new_no_memory_ex : optimizer_new (fun k _ => negb (k =? 2)) K_RMSprop [] statics0 ex_layers (Some MSE) (ex_conf None) = Fault AssertFailed.
Proof. vm_compute. reflexivity. Qed.
(** after an epoch there is a sample order too, which is freed *)
Example free_pivot_ex : optimizer_free [Some BData; Some BData; Some BData; Some BData] (mk_ropt K_SGD 1 [2] (Some MSE) 32 MStatic (Some 3))
  = Ok [Some BData; None; None; None].
Proof. vm_compute. reflexivity. Qed.
