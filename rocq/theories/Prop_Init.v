(** Prop_Init.v -- C54 and C55: the initialisation of the parameters. *)
From Coq Require Import ZArith Bool String Ascii List Arith Reals Lia Lra.
From Flocq Require Import Core BinarySingleNaN.
From Verif Require Import Base BaseProofs Ops OpsB32 B32Facts MetricB32 Activation Logger NpyList Registry SpecRegistry Create Prop_Registry SpecLog Init SpecInit InitProofs.
Import ListNotations.
Local Open Scope R_scope.

(** the layer l' is the layer l with parameters by the method for the initializer i *)
Definition initialized (lm : libm) (i : list ascii) (l l' : @ilayer (opsB32 lm)) : Prop :=
  exists m (ws : list b32), method_for i (il_func l) m /\ (forall m', method_for i (il_func l) m' -> m' = m)
    /\ l' = @mk_ilayer (opsB32 lm) (il_in l) (il_out l) (il_func l) (map Some ws) (repeat (Some b32_zero) (Z.to_nat (il_out l)))
    /\ length ws = Z.to_nat (il_in l * il_out l) /\ Forall (weight_of lm m (il_in l) (il_out l)) ws.

Lemma lookups_at lib_opens dlsym names st fs : lookups lib_opens dlsym [] names = Ok (st, fs) -> at_names st.
Proof.
  intros E. destruct (lookups_good lib_opens dlsym names [] st fs (Forall_nil _) E) as (G & _). revert G. apply Forall_impl.
  intros r (sy & li & f & (EN & _) & _). rewrite EN. apply in_or_app. right. left. reflexivity.
Qed.

(** neuralnet_initialize, for all layers, all streams of rand() and all arrays of initializers, in all states of the
    process: unless the stream keeps random_normal in its loop, all parameters are set, all biases to 0 and all
    weights by the method asked for or else by the one for the activation function *)
Theorem initialize_sets_all lm lib_opens dlsym names st fs rand fuel inits strs s (ls : list (@ilayer (opsB32 lm))) :
  (forall k, 0 <= rand k <= 2147483647)%Z -> lookups lib_opens dlsym [] names = Ok (st, fs) ->
  initializer_strings inits strs -> length strs = length ls -> Forall layer_fits ls -> rng_ok lm s ->
  @initialize (opsB32 lm) rand fuel st inits s ls = Fault OutOfFuel
  \/ exists s' ls', @initialize (opsB32 lm) rand fuel st inits s ls = Ok (s', ls') /\ rng_ok lm s'
     /\ Forall2 (fun il l' => initialized lm (fst il) (snd il) l') (combine strs ls) ls'.
Proof.
  intros RR LO HS L FL RO.
  destruct (init_layers_ok lm rand (rng_ok lm) (polar_value lm) (weight_of lm)) with (fuel := fuel) (st := st) (ls := ls) (strs := strs) (inits := inits) (s := s)
    as [E|(s' & ls' & E & I' & D)]; try assumption.
  - intros s0 k H E. exact (H E).
  - intros n_in n_out k H. apply xavier_weight; [apply RR|lia].
  - intros f s0. apply random_normal_spec. exact RR.
  - intros n_in n_out g _ Pg. exists g. auto.
  - intros n_in n_out g Pg. exists g. auto.
  - eapply lookups_at. exact LO.
  - left. exact E.
  - right. exists s', ls'. split; [exact E|]. split; [exact I'|]. revert D. clear. intros D. induction D as [|[i l] l' a b H _ IH]; constructor; [|exact IH].
    destruct H as (ws & -> & LW & FW). cbn [fst snd] in *. exists (method_of i (il_func l)), ws.
    split; [apply method_of_for|]. split; [intros m' Hm; eapply method_for_fun; [exact Hm|apply method_of_for]|]. auto.
Qed.
Print Assumptions initialize_sets_all.
(** the state at the start of the process *)
Example rng0_ok lm : rng_ok lm (@rng0 (opsB32 lm)).
Proof. intros E. discriminate. Qed.

(** a network of a sigmoid layer, a relu layer and a linear layer, no initializers *)
Example initialize_sets_all_ex lm : exists ls : list (@ilayer (opsB32 lm)), Forall layer_fits ls /\ length ls = 3%nat
  /\ map (fun l => method_of [] (il_func l)) ls = [Xavier; Kaiming; Normal]
  /\ initializer_strings None [[]; []; []] /\ initializer_strings (Some [Some (txt "kaiming"); Some []; Some (txt "xavier")]) [txt "kaiming"; []; txt "xavier"].
Proof.
  exists [mk_ilayer 2 3 (Builtin Sigmoid) (repeat None 6) (repeat None 3); mk_ilayer 3 2 (Builtin Relu) (repeat None 6) (repeat None 2);
          mk_ilayer 2 1 (Builtin Linear) (repeat None 2) (repeat None 1)].
  split; [repeat constructor; cbn; lia|]. split; [reflexivity|]. split; [reflexivity|]. split; [repeat constructor|]. exists []. reflexivity.
Qed.
(** the bound is the rounded one: with 2 inputs and 2 outputs and RAND_MAX as the number, the weight is above sqrt(6/4) *)
Example xavier_exact_bound_refuted lm :
  sqrt (6 / 4) < bv (Bmult mode_NE (@uniform_of (opsB32 lm) 2147483647) (Bsqrt mode_NE (Bdiv mode_NE (b32_ofZ 6) (b32_ofZ (2 + 2))))).
Proof.
  set (w := Bmult mode_NE _ _). destruct (sf_R w false 10273905 (-23)) as [E _]. { unfold w, uniform_of. cbn [fsub fmul fdiv fofZ f1 F opsB32]. vm_compute. reflexivity. }
  rewrite E. unfold F2R. simpl. apply Rsqr_incrst_0; [|apply sqrt_pos|lra]. rewrite Rsqr_sqrt by lra. unfold Rsqr. lra.
Qed.

(** C55, refuted: if rand() returns the middle number twice, random_normal divides by 0 and returns NaN -- and NaN
    again at the next call *)
Theorem random_normal_refuted lm : lm_log lm (B754_zero false) = B754_infinity true ->
  exists rand s', (forall k, 0 <= rand k <= 2147483647)%Z
    /\ @random_normal (opsB32 lm) rand 1 (@rng0 (opsB32 lm)) = Ok (s', B754_nan)
    /\ exists s'', @random_normal (opsB32 lm) rand 1 s' = Ok (s'', B754_nan).
Proof.
  intros HL. exists (fun _ => 1073741824%Z). eexists. split; [lia|].
  destruct (uniform_R lm 1073741824 ltac:(lia)) as (_ & _ & C & _). specialize (C ltac:(unfold centre; lia)).
  assert (S0 : Bplus mode_NE (Bmult mode_NE (B754_zero false : b32) (B754_zero false)) (Bmult mode_NE (B754_zero false : b32) (B754_zero false)) = B754_zero false) by (apply B2SF_inj; vm_compute; reflexivity).
  assert (PF : @polar_factor (opsB32 lm) (B754_zero false) = B754_infinity false).
  { unfold polar_factor. cbn [fsqrt fdiv fmul fneg fofZ flog F opsB32]. rewrite HL. apply B2SF_inj. vm_compute. reflexivity. }
  split.
  - unfold random_normal. cbn [rng0 r_prev r_pos]. cbn [polar_loop]. rewrite C.
    change (@fadd (opsB32 lm) (@fmul (opsB32 lm) (B754_zero false) (B754_zero false)) (@fmul (opsB32 lm) (B754_zero false) (B754_zero false)))
      with (Bplus mode_NE (Bmult mode_NE (B754_zero false : b32) (B754_zero false)) (Bmult mode_NE (B754_zero false : b32) (B754_zero false))).
    rewrite S0. change (@fge (opsB32 lm) (B754_zero false) f1) with false. cbn [rbind]. rewrite PF. reflexivity.
  - eexists. unfold random_normal. cbn [r_prev r_pos r_v r_fac]. reflexivity.
Qed.
Print Assumptions random_normal_refuted.

(** C55: for every stream without two numbers in a row that are so close to the middle that the uniform number is 0
    (97 of the 2^31 numbers): whatever was called before, random_normal returns a finite number, if it returns *)
Theorem random_normal_finite_partial lm rand fuel s : logf_neg lm -> (forall k, 0 <= rand k <= 2147483647)%Z ->
  (forall k, ~ (centre (rand k) /\ centre (rand (S k)))) -> rng_fin lm s ->
  @random_normal (opsB32 lm) rand fuel s = Fault OutOfFuel
  \/ exists s' g, @random_normal (opsB32 lm) rand fuel s = Ok (s', g) /\ rng_fin lm s' /\ is_finite g = true /\ Rabs (B2R g) <= 268435456.
Proof. intros LN RR NC RF. exact (random_normal_fin lm rand RR fuel s LN NC RF). Qed.
Print Assumptions random_normal_finite_partial.

(** for those streams, all weights of all layers are finite *)
Theorem initialize_finite_partial lm lib_opens dlsym names st fs rand fuel inits strs s (ls : list (@ilayer (opsB32 lm))) :
  logf_neg lm -> (forall k, 0 <= rand k <= 2147483647)%Z -> (forall k, ~ (centre (rand k) /\ centre (rand (S k)))) ->
  lookups lib_opens dlsym [] names = Ok (st, fs) ->
  initializer_strings inits strs -> length strs = length ls -> Forall layer_fits ls -> rng_fin lm s ->
  @initialize (opsB32 lm) rand fuel st inits s ls = Fault OutOfFuel
  \/ exists s' ls', @initialize (opsB32 lm) rand fuel st inits s ls = Ok (s', ls') /\ rng_fin lm s'
     /\ Forall2 (fun l l' => il_in l' = il_in l /\ il_out l' = il_out l /\ il_func l' = il_func l
          /\ length (il_w l') = length (il_w l) /\ length (il_b l') = length (il_b l)
          /\ Forall (fun o : option (@F (opsB32 lm)) => exists w : b32, o = Some w /\ is_finite w = true) (il_w l' ++ il_b l')) ls ls'.
Proof.
  intros LN RR NC LO HS L FL RF.
  destruct (init_layers_ok lm rand (rng_fin lm) (fun g => fin g = true /\ Rabs (bv g) <= 268435456) (fun _ _ _ w => fin w = true))
    with (fuel := fuel) (st := st) (ls := ls) (strs := strs) (inits := inits) (s := s)
    as [E|(s' & ls' & E & I' & D)]; try assumption.
  - intros s0 k H E. exact (H E).
  - intros n_in n_out k H. apply (xavier_weight lm (rand k) n_in n_out (RR k)). lia.
  - intros f s0 R0. exact (random_normal_fin lm rand RR f s0 LN NC R0).
  - intros n_in n_out g Hn (Fg & Bg). destruct (kaiming_scale n_in Hn) as (Fs & Bs). apply scaled_fin; assumption.
  - intros n_in n_out g (Fg & Bg). apply scaled_fin; [exact Fg|exact Bg|exact one_fin|]. rewrite one_R. lra.
  - eapply lookups_at. exact LO.
  - left. exact E.
  - right. exists s', ls'. split; [exact E|]. split; [exact I'|]. revert strs L HS D. clear -FL. intros strs L _ D. revert strs ls' L D.
    induction FL as [|l ls (_ & LW & LB) _ IH]; intros strs ls' L D.
    + destruct strs; [|discriminate]. cbn in D. inversion D; subst. constructor.
    + destruct strs as [|i strs]; [discriminate|]. cbn [combine] in D. inversion D as [|a b la lb (ws & E & LW' & FW) D']; subst. constructor; [|eapply IH; [|exact D']; cbn in L; lia].
      cbn [il_in il_out il_func il_w il_b]. cbn [snd] in *. rewrite map_length, repeat_length, LW, LB. cbn [F opsB32] in *.
      refine (conj eq_refl (conj eq_refl (conj eq_refl (conj LW' (conj eq_refl _))))).
      apply Forall_app. split; [apply Forall_map; revert FW; apply Forall_impl; intros w Fw; exists w; auto|].
      apply Forall_forall. intros o Io. apply repeat_spec in Io. subst o. exists b32_zero. auto.
Qed.
Print Assumptions initialize_finite_partial.
Example rng0_fin lm : rng_fin lm (@rng0 (opsB32 lm)).
Proof. intros E. discriminate. Qed.
(** a stream that satisfies the hypotheses, and for which the loop ends at once *)
Example random_normal_finite_ex : let rand := fun k => if Nat.even k then 1500000000%Z else 1073741824%Z in
  (forall k, 0 <= rand k <= 2147483647)%Z /\ (forall k, ~ (centre (rand k) /\ centre (rand (S k)))).
Proof.
  cbv zeta. split; intros k; [destruct (Nat.even k); lia|]. rewrite Nat.even_succ, <- Nat.negb_even. unfold centre. destruct (Nat.even k); cbn [negb]; lia.
Qed.
Example random_normal_finite_ex2 lm : exists s' g,
  @random_normal (opsB32 lm) (fun k => if Nat.even k then 1500000000%Z else 1073741824%Z) 1 (@rng0 (opsB32 lm)) = Ok (s', g).
Proof.
  unfold random_normal. cbn [rng0 r_prev r_pos polar_loop Nat.even]. eexists _, _.
  match goal with |- rbind (if ?c then _ else _) _ = _ => assert (E : c = false) by (vm_compute; reflexivity) end. rewrite E. cbn [rbind]. reflexivity.
Qed.
(** the two assumptions on logf can hold together *)
Example logf_ex : exists lm, logf_neg lm /\ lm_log lm (B754_zero false) = B754_infinity true.
Proof.
  exists {| lm_exp := fun x => x; lm_tanh := fun x => x; lm_log := fun x : b32 => match x with B754_zero _ => B754_infinity true | _ => b32_ofZ (-1) end |}.
  split; [|reflexivity]. intros x Fx Bx. cbn [lm_log].
  assert (E : bv (b32_ofZ (-1)) = -1). { destruct (sf_R (b32_ofZ (-1)) true 8388608 (-23)) as [Q _]; [vm_compute; reflexivity|]. rewrite Q. unfold F2R. simpl. lra. }
  destruct x; try discriminate; [cbn in Bx; lra|]. rewrite E. split; [reflexivity|lra].
Qed.
