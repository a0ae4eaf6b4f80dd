(** Prop_TestSgd.v -- C104: the options of test_sgd; C105: the accuracy that it prints *)
From Coquelicot Require Import Coquelicot.
From Coq Require Import String Ascii List Arith ZArith Lia Bool Permutation Reals Lra.
From Verif Require Import Base BaseProofs Ops OpsR Mem MemProofs Kernels KernelProofs Activation ActivationProofs
  Loss Neuralnet ForwardProofs SpecReal RealForward PredictProofs BitsProofs GradProofs OpsB32 B32Facts SpecMem ParamProofs Batch BatchProofs BlasProofs
  MetricProofs SpecMetric SpecOpt Pivot Optimizer OptProofs OptReal OptTrain Evaluate EvalProofs EvalReal Names OptInit SpecSettings TestSgd
  Prop_Batch Prop_Metrics Prop_Evaluate Ex_Mem Ex_Train.
Import ListNotations.
Local Open Scope nat_scope.

(** ** C104 *)
Lemma strncmp_prefix : forall t s, strncmp_same s t (String.length t) = true <-> exists r, s = (t ++ r)%string.
Proof.
  induction t as [|b t IH]; intros s; simpl.
  - split; [intros _; exists s; reflexivity|reflexivity].
  - destruct s as [|a s]; [split; [discriminate|intros (r & E); discriminate E]|].
    destruct (Ascii.eqb_spec a b) as [-> |NE].
    + rewrite IH. split; intros (r & E); exists r; [subst; reflexivity|inversion E; reflexivity].
    + split; [discriminate|]. intros (r & E). inversion E; congruence.
Qed.
(** the words for true, which may be followed by anything *)
Definition true_words : list string := ["true"; "True"; "Yes"; "1"]%string.
(** what the user asked for: the last of the options of a kind, otherwise the default *)
Definition asked_lr {FO : fops} (strtof : string -> F) (os : list parsed) : F :=
  given (fun o => match o with P_l a => Some (strtof a) | _ => None end) os (flit 1 100).
Definition asked_momentum {FO : fops} (strtof : string -> F) (os : list parsed) : F :=
  given (fun o => match o with P_m a => Some (strtof a) | _ => None end) os f0.
Definition asked_nesterov (os : list parsed) : bool :=
  given (fun o => match o with P_n a => Some (existsb (fun w => String.prefix w a) true_words) | _ => None end) os false.

Theorem string_to_bool_words (s : string) : string_to_bool s = true <-> exists w r, In w true_words /\ s = (w ++ r)%string.
Proof.
  unfold string_to_bool.
  pose proof (strncmp_prefix "true" s) as A. pose proof (strncmp_prefix "True" s) as B.
  pose proof (strncmp_prefix "Yes" s) as C. pose proof (strncmp_prefix "1" s) as D.
  change (String.length "true") with 4 in A. change (String.length "True") with 4 in B. change (String.length "Yes") with 3 in C. change (String.length "1") with 1 in D.
  split.
  - intros H. destruct (strncmp_same s "true" 4); [destruct (proj1 A eq_refl) as [r E]; exists "true"%string, r; simpl; auto|].
    destruct (strncmp_same s "True" 4); [destruct (proj1 B eq_refl) as [r E]; exists "True"%string, r; simpl; auto|].
    destruct (strncmp_same s "Yes" 3); [destruct (proj1 C eq_refl) as [r E]; exists "Yes"%string, r; simpl; auto|].
    destruct (strncmp_same s "1" 1); [destruct (proj1 D eq_refl) as [r E]; exists "1"%string, r; simpl; auto 10|discriminate].
  - intros (w & r & Hw & E).
    destruct (strncmp_same s "true" 4); auto. destruct (strncmp_same s "True" 4); auto.
    destruct (strncmp_same s "Yes" 3); auto. destruct (strncmp_same s "1" 1); auto.
    destruct Hw as [<-|[<-|[<-|[<-|[]]]]]; [apply A|apply B|apply C|apply D]; eauto.
Qed.
Print Assumptions string_to_bool_words.
Example string_to_bool_case : string_to_bool "truely" = true /\ string_to_bool "10" = true /\ string_to_bool "yes" = false /\ string_to_bool "tru" = false.
Proof. repeat split. Qed.

Lemma prefix_iff : forall w a, String.prefix w a = true <-> exists r, a = (w ++ r)%string.
Proof.
  induction w as [|b w IH]; intros a.
  - split; [intros _; exists a; reflexivity|intros _; destruct a; reflexivity].
  - destruct a as [|x a]; simpl; [split; [discriminate|intros (r & E); discriminate E]|].
    destruct (ascii_dec b x) as [-> |NE].
    + rewrite IH. split; intros (r & E); exists r; [subst; reflexivity|inversion E; reflexivity].
    + split; [discriminate|]. intros (r & E). inversion E; congruence.
Qed.
Lemma string_to_bool_prefix a : string_to_bool a = existsb (fun w => String.prefix w a) true_words.
Proof.
  apply eq_iff_eq_true. rewrite string_to_bool_words, existsb_exists. split.
  - intros (w & r & Hw & E). exists w. split; auto. apply prefix_iff. eauto.
  - intros (w & Hw & Hp). apply prefix_iff in Hp. destruct Hp as [r E]. eauto.
Qed.

(** What the program prints is what the user asked for, except that nesterov is switched off without momentum. *)
Theorem test_sgd_printed (FO : fops) (strtof : string -> F) (os : list parsed) :
  let v := test_sgd_options strtof os in
  sv_lr v = asked_lr strtof os /\ sv_momentum v = asked_momentum strtof os /\
  sv_nesterov v = (asked_nesterov os && negb (fle (asked_momentum strtof os) f0)).
Proof.
  unfold test_sgd_options. set (v := fold_left _ os _).
  assert (A : sv_lr v = asked_lr strtof os) by (unfold v; erewrite member; [reflexivity|intros q []; reflexivity]).
  assert (B : sv_momentum v = asked_momentum strtof os) by (unfold v; erewrite member; [reflexivity|intros q []; reflexivity]).
  assert (C : sv_nesterov v = asked_nesterov os).
  { unfold v, asked_nesterov. erewrite member; [reflexivity|]. intros q []; try reflexivity. simpl. rewrite string_to_bool_prefix. reflexivity. }
  rewrite <- A, <- B, <- C. cbv zeta. destruct (fle (sv_momentum v) f0), (sv_nesterov v) eqn:E; simpl; rewrite ?E; auto.
Qed.
Print Assumptions test_sgd_printed.

(** C104 is false: the optimizer does not get the momentum that the program prints.  [a]: any argument whose value is not 0. *)
Theorem test_sgd_momentum_refuted (FO : fops) (strtof : string -> F) (a : string) : strtof a <> f0 ->
  exists os : list parsed, sv_momentum (test_sgd_options strtof os) = strtof a /\
    sp_mu (test_sgd_settings strtof os) <> sv_momentum (test_sgd_options strtof os).
Proof.
  intros H. exists [P_m a]. unfold test_sgd_settings, test_sgd_options. simpl. rewrite andb_false_r. simpl. split; auto.
Qed.
Print Assumptions test_sgd_momentum_refuted.
(** nor nesterov, for a momentum that is greater than 0 *)
Theorem test_sgd_nesterov_refuted (FO : fops) (strtof : string -> F) (a : string) : fle (strtof a) f0 = false ->
  exists os : list parsed, sv_nesterov (test_sgd_options strtof os) = true /\ sp_nesterov (test_sgd_settings strtof os) = false.
Proof.
  intros H. exists [P_m a; P_n "true"]. unfold test_sgd_settings, test_sgd_options. simpl. rewrite H. split; reflexivity.
Qed.
Print Assumptions test_sgd_nesterov_refuted.
(** C104, what is true: for all options the optimizer has the learning rate that was asked for, no decay, no momentum, no nesterov. *)
Theorem test_sgd_settings_exact (FO : fops) (strtof : string -> F) (os : list parsed) :
  let p := test_sgd_settings strtof os in
  sp_lr p = asked_lr strtof os /\ sp_decay p = f0 /\ sp_mu p = f0 /\ sp_nesterov p = false.
Proof. destruct (test_sgd_printed FO strtof os) as [A _]. cbv zeta in *. rewrite <- A. repeat split. Qed.
Print Assumptions test_sgd_settings_exact.
Example test_sgd_case : let strtof := fun s : string => Z.of_nat (String.length s) in
  let os := [P_m "abc"; P_l "x"; P_other; P_n "True"; P_l "seven"]%string in
  sv_lr (test_sgd_options (FO := opsZ) strtof os) = 5%Z /\ sv_momentum (test_sgd_options (FO := opsZ) strtof os) = 3%Z /\
  sv_nesterov (test_sgd_options (FO := opsZ) strtof os) = true /\ sp_lr (test_sgd_settings (FO := opsZ) strtof os) = 5%Z /\
  sp_mu (test_sgd_settings (FO := opsZ) strtof os) = 0%Z.
Proof. repeat split. Qed.

(** ** C105 *)
(** one output and one target: categorical_accuracy is 1, whatever the values are *)
Theorem one_output_metric (FO : fops) (p r x : F) : metric_returns M_CatAcc [p] [r] x <-> x = f1.
Proof.
  split.
  - intros H. set (m0 := [mkblock 0 [Some p]; mkblock 0 [Some r]] : mem).
    assert (E : metric_func M_CatAcc 1 (mkptr 0 0) (mkptr 1 0) m0 = Ok (x, m0)).
    { apply (H m0 (mkptr 0 0) (mkptr 1 0)); (eexists; split; [reflexivity|split; [simpl; lia|reflexivity]]). }
    assert (E' : metric_func M_CatAcc 1 (mkptr 0 0) (mkptr 1 0) m0 = Ok (f1, m0)) by reflexivity. congruence.
  - intros ->. apply (metric_returns_f M_CatAcc [p] [r]); auto.
Qed.
Print Assumptions one_output_metric.

Lemma rsum_ones (e : nat -> R) l : (forall i, In i l -> e i = 1%R) -> rsum (map e l) = INR (length l).
Proof.
  induction l as [|i l IH]; intros H; [reflexivity|]. simpl map. simpl rsum. rewrite IH by (intros; apply H; simpl; auto). rewrite (H i) by (simpl; auto).
  simpl length. rewrite S_INR. lra.
Qed.
(** a sample on the wrong side: the output and the target are on different sides of 1/2 *)
Definition wrong_side (y t : R) : Prop := (y < 1/2 < t \/ t < 1/2 < y)%R.

(** the results of evaluate in test_sgd for any network with one output (exact arithmetic) *)
Theorem test_sgd_accuracy (c : cfg) (nn : neuralnet) (net : list (@flayer opsR)) (m : @mem opsR) (X Y results : ptr)
    (xs ts : list (list R)) (s : esched) :
  @eval_mem opsR c nn net m X Y xs ts -> out_size nn = 1 -> 1 <= length xs -> valid m results 2 -> sched_fine c s (length xs) ->
  exists e, mean_of_metrics nn net xs ts [M_BCE] [e] /\
    writes_only (@evaluate opsR c exp s nn (length xs) X Y test_sgd_metrics results) m results [e; 1%R].
Proof.
  intros EM O1 HX V (S1 & S2 & S3).
  destruct (evaluate_mean c nn net m X Y results xs ts [M_BCE; M_CatAcc] [] s EM V S1 S2 S3) as (res & (L & MM) & W).
  destruct res as [|e [|a [|]]]; try discriminate L. exists e. split.
  - split; [reflexivity|]. intros [|j] t Ht; [|destruct j; discriminate Ht]. exact (MM 0 t Ht).
  - destruct (MM 1 M_CatAcc eq_refl) as (f & Ea & H). assert (A : a = 1%R); [|rewrite <- A; exact W].
    change (vec [e; a] 1) with a in Ea. rewrite Ea. rewrite rsum_ones.
    + rewrite seq_length. field. apply not_0_INR. lia.
    + intros i Hi. apply in_seq in Hi. destruct EM as (_ & _ & _ & _ & LT & _ & HT).
      change (@F opsR) with R in *. assert (Li : i < length xs) by lia. assert (Lt : i < length ts) by (rewrite LT; exact Li).
      destruct (@nth_error_ex _ xs i Li) as [x Hx]. destruct (@nth_error_ex _ ts i Lt) as [r Hr].
      destruct (H i x r Hx Hr) as (ys & Ly & _ & MR). rewrite O1 in Ly. pose proof (HT r (nth_error_In _ _ Hr)) as Lr. rewrite O1 in Lr.
      destruct ys as [|y [|]]; try discriminate Ly. destruct r as [|t [|]]; try discriminate Lr.
      apply (one_output_metric opsR y t (f i)). exact MR.
Qed.
Print Assumptions test_sgd_accuracy.

(** C105 is false: a network that puts all samples on the wrong side has the accuracy 1 *)
Theorem test_sgd_accuracy_refuted (c : cfg) (s : esched) : sched_fine c s 2 ->
  exists (nn : neuralnet) (net : list (@flayer opsR)) (m : @mem opsR) (X Y results : ptr) (xs ts : list (list R)) (e : R),
    length xs = 2 /\ @eval_mem opsR c nn net m X Y xs ts /\ out_size nn = 1 /\
    (forall i x t, nth_error xs i = Some x -> nth_error ts i = Some t ->
       wrong_side (eval (shape_of net) (in_size nn) (vec (params_of net)) (vec x) 0) (vec t 0)) /\
    writes_only (@evaluate opsR c exp s nn (length xs) X Y test_sgd_metrics results) m results [e; 1%R].
Proof.
  intros SF. set (m := @ev_mem opsR [3%R; 4%R] [1%R; 1%R] [] []).
  assert (EM : @eval_mem opsR c tc_nn (@tc_net opsR) m (mkptr 2 0) (mkptr 3 0) [[3]; [4]]%R [[1]; [1]]%R).
  { apply (@tc_eval opsR c [3; 4]%R [1; 1]%R). reflexivity. }
  destruct (test_sgd_accuracy c tc_nn (@tc_net opsR) m (mkptr 2 0) (mkptr 3 0) (mkptr 9 0) [[3]; [4]]%R [[1]; [1]]%R s EM eq_refl) as (e & _ & W).
  { simpl. lia. } { eexists. split; [reflexivity|]. simpl. lia. } { exact SF. }
  exists tc_nn, (@tc_net opsR), m, (mkptr 2 0), (mkptr 3 0), (mkptr 9 0), [[3]; [4]]%R, [[1]; [1]]%R, e.
  split; [reflexivity|]. split; [exact EM|]. split; [reflexivity|]. split; [|exact W].
  intros i x t Hx Ht. assert (T : vec t 0 = 1%R).
  { destruct i as [|[|i]]; simpl in Ht; [| |destruct i; discriminate Ht]; inversion Ht; reflexivity. }
  rewrite T. left. cbn. lra.
Qed.
Print Assumptions test_sgd_accuracy_refuted.
Example test_sgd_accuracy_case (c : cfg) : sched_fine c ev_seq 2.
Proof. split; [|split]; intros; try apply aligned_base_0. exact I. Qed.
