(** GradSample.v -- the gradient of one sample in float32 and in exact arithmetic (used by Prop_GradRound.v and StepRound.v) *)
From Coquelicot Require Import Coquelicot.
From Flocq Require Import Core BinarySingleNaN.
From Coq Require Import ZArith Bool List Arith Reals Lia Lra.
From Verif Require Import Base BaseProofs Ops OpsR Mem MemProofs Kernels KernelProofs Activation ActivationProofs Loss Neuralnet
  ForwardProofs BackpropProofs OpsB32 B32Facts MetricB32 SpecReal RealForward RealGrad LossGrad GradProofs SpecBits BitsProofs SpecMem PredictProofs Prop_Predict GradPropProofs
  Ex_Mem Exp256B32 SpecLibm SpecRound RoundProofs RoundNet LibmCase Prop_Round SpecGradRound SlopeRound LossRound GradRound.
Import ListNotations.
Local Open Scope R_scope.

Lemma shape_real lm (net : list (@flayer (opsB32 lm))) : shape_of (map (real_layer lm) net) = shape_b32 (triples net).
Proof. unfold shape_of, shape_b32, triples. rewrite !map_map. apply map_ext. intros l. cbn [fst snd]. rewrite real_out. reflexivity. Qed.
Lemma params_real lm (net : list (@flayer (opsB32 lm))) : params_of (map (real_layer lm) net) = params_b32 (triples net).
Proof. unfold params_of, params_b32, triples. induction net as [|l net IH]; [reflexivity|]. cbn [map flat_map fst snd]. f_equal. exact IH. Qed.
Lemma fits_real lm : forall (net : list (@flayer (opsB32 lm))) n, fits_f n net -> fits n (map (real_layer lm) net).
Proof.
  induction net as [|l net IH]; intros n HF; [exact I|]. destruct HF as (LW & M1 & HF). cbn [map fits]. rewrite real_out. split.
  - exact (eq_trans (map_length _ _) LW).
  - apply IH. exact HF.
Qed.
Lemma outputs_fits lm : forall (net : list (@flayer (opsB32 lm))) n l, fits_f n net -> nth_error net (length net - 1) = Some l ->
  n_outputs (shape_b32 (triples net)) n = @fn_out (opsB32 lm) l /\ (1 <= fn_out l)%nat.
Proof.
  induction net as [|l net IH]; intros n l0 HF Hl; [discriminate|]. destruct HF as (LW & M1 & HF).
  destruct net as [|l2 net].
  - cbn in Hl. inversion Hl; subst l0. split; [reflexivity|exact M1].
  - apply (IH (fn_out l) l0 HF). rewrite <- Hl. cbn [length Nat.sub nth_error]. rewrite Nat.sub_0_r. reflexivity.
Qed.

(** the gradient of a sample: finite, and near the exact partial derivatives *)
Lemma bp_grad_near (lm : libm) (c : cfg) (lf : loss) (net : list (@flayer (opsB32 lm))) (xs ts : list b32) :
  net <> [] -> @fits_f (opsB32 lm) (length xs) net -> covered_net lm (triples net) ->
  Forall (fun v : b32 => fin v = true) xs -> Forall (fun v : b32 => fin v = true) ts ->
  let sh := shape_b32 (triples net) in
  let n := length xs in
  let th := vec (params_b32 (triples net)) in
  let x := vec (map (@B2R 24 128) xs) in
  let t := vec (map (@B2R 24 128) ts) in
  let no := n_outputs sh n in
  length ts = no -> trainable lf sh -> (lf = CCE -> sumf no t = 1) ->
  in_range sh n 0 th (fun i => Rabs (x i)) (fun _ => 0) ->
  safe lf t sh n 0 th (fun i => Rabs (x i)) (fun _ => 0) x ->
  let g := @bp_grad (opsB32 lm) c (@exp256_lane (opsB32 lm)) (derivs lf net) lf xs ts in
  (smooth sh n th x /\ target_ok lf no t (eval sh n th x)) /\
  length g = n_params sh n /\
  forall k, (k < n_params sh n)%nat ->
    fin (nth k g b32_zero) = true /\
    exists D, is_derive (fun v => loss_math lf no t (eval sh n (upd th k v) x)) (th k) D /\
              is_near (grad_near lf t sh n 0 th (fun i => Rabs (x i)) (fun _ => 0) k) (bv (nth k g b32_zero)) D.
Proof.
  intros Hne HF CN FX FT sh n th x t no LT HT HC HR HS g.
  set (rx := map (@B2R 24 128) xs). set (rts := map (@B2R 24 128) ts).
  assert (LRX : length rx = n) by apply map_length.
  assert (LRT : length rts = no) by (etransitivity; [apply map_length|exact LT]).
  assert (NP : net_par (triples net) n th).
  { apply params_par; [reflexivity|]. clear - HF. change (@F (opsB32 lm)) with b32 in *.
    revert HF. unfold n. generalize (length xs). induction net as [|l net IH]; intros k HF; [exact I|]. destruct HF as (LW & _ & HF).
    split; [exact LW|]. exact (IH _ HF). }
  assert (NO1 : (1 <= no)%nat).
  { destruct (@nth_error_ex _ net (length net - 1)) as [l Hl]. { destruct net; simpl; [congruence|lia]. }
    destruct (outputs_fits lm net n l HF Hl) as (NO & NO1). fold sh in NO. fold no in NO. lia. }
  destruct net as [|l0 net]; [destruct HT|].
  destruct (bp_near lm c lf ts FT net l0 0 xs rx th (fun i => Rabs (x i)) (fun _ => 0) x n eq_refl LRX HF CN FX NP) as (dl & w & rest & rdl & rw & rrest & _ & _ & _ & _ & _ & SM & TG & LG & NG).
  { intros i Hi. split; [reflexivity|]. split; [lra|]. unfold x. rewrite vec_bv. apply approx_exact. }
  { exact HR. } { exact HT. } { exact LT. } { exact HS. }
  fold sh in SM, TG, LG, NG. fold t in TG. fold no in TG.
  assert (EG : @bp_grad (opsB32 lm) c (@exp256_lane (opsB32 lm)) (derivs lf (l0 :: net)) lf xs ts =
    @flat (opsB32 lm) (@bp_f (opsB32 lm) c (derivs lf (l0 :: net)) (vals_f c (@exp256_lane (opsB32 lm)) (l0 :: net) xs) (loss_f lf (forward_f c (@exp256_lane (opsB32 lm)) (l0 :: net) 0 xs) ts))).
  { unfold bp_grad. rewrite map_fst_derivs. cbv zeta. rewrite last_vals. reflexivity. }
  set (rnet := map (real_layer lm) (l0 :: net)) in *.
  assert (ER : @bp_grad opsR c exp (derivs lf rnet) lf rx rts =
    @flat opsR (@bp_f opsR c (derivs lf rnet) (vals_f c exp rnet rx) (loss_f lf (forward_f c exp rnet 0 rx) rts))).
  { unfold bp_grad. rewrite map_fst_derivs. cbv zeta. rewrite last_vals. reflexivity. }
  assert (ESH : shape_of rnet = sh) by apply shape_real. assert (EPA : params_of rnet = params_b32 (triples (l0 :: net))) by apply params_real.
  destruct (grad_R c lf rnet rx rts) as (_ & DR).
  { change (@F opsR) with R. rewrite LRX. apply fits_real. exact HF. }
  { rewrite ESH. exact HT. }
  { change (@F opsR) with R. rewrite ESH, LRX. fold no. lia. }
  { change (@F opsR) with R. rewrite ESH, LRX. exact LRT. }
  { change (@F opsR) with R. rewrite ESH, LRX, EPA. exact SM. }
  { change (@F opsR) with R. rewrite ESH, LRX, EPA. fold no. destruct lf; try (apply TG; discriminate). cbn [target_ok]. apply HC. reflexivity. }
  change (@F opsR) with R in DR. rewrite ESH, LRX, EPA in DR. fold no in DR.
  split. { split; [exact SM|]. destruct lf; try (apply TG; discriminate). cbn [target_ok]. apply HC. reflexivity. }
  unfold g. split. { rewrite EG. exact LG. }
  intros k Hk. rewrite EG. destruct (NG k Hk) as (FG & NE). split; [exact FG|].
  exists (vec (@bp_grad opsR c exp (derivs lf rnet) lf rx rts) k). split; [exact (DR k Hk)|]. rewrite ER. exact NE.
Qed.
