(** TestSgd.v -- examples/test_sgd.c: the options of the program, the settings of its optimizer and its metrics *)
From Coq Require Import String Ascii List Arith ZArith Bool.
From Verif Require Import Base Ops Mem Loss Names Evaluate OptInit.
Import ListNotations.
Local Open Scope string_scope.

(** strncmp( s, t, n ) == 0 for strings without NUL *)
Fixpoint strncmp_same (s t : string) (n : nat) {struct n} : bool :=
  match n with
  | O => true
  | S n => match s, t with
           | EmptyString, EmptyString => true
           | String a s, String b t => if Ascii.eqb a b then strncmp_same s t n else false
           | _, _ => false
           end
  end.
(** examples/test_sgd.c:25-41 *)
Definition string_to_bool (str : string) : bool :=
  if strncmp_same str "true" 4 then true
  else if strncmp_same str "True" 4 then true
  else if strncmp_same str "Yes" 3 then true
  else if strncmp_same str "1" 1 then true
  else false.

Section Options.
Context {FO : fops}.
(** strtof( s, NULL ), library function *)
Variable strtof : string -> F.

(** the values that getopt_long returns (lines 59-60), with optarg; P_other: '?' after an unknown option or a missing argument.
    The case 0 (lines 68-76) does not occur, because every entry of long_options has a value. *)
Inductive parsed := P_l (optarg : string) | P_m (optarg : string) | P_n (optarg : string) | P_other.
(** the local variables of lines 45-47 *)
Record svars := { sv_lr : F; sv_momentum : F; sv_nesterov : bool }.
(** lines 66-88, one turn of the loop *)
Definition take_option (v : svars) (o : parsed) : svars :=
  match o with
  | P_l a => {| sv_lr := strtof a; sv_momentum := sv_momentum v; sv_nesterov := sv_nesterov v |}
  | P_m a => {| sv_lr := sv_lr v; sv_momentum := strtof a; sv_nesterov := sv_nesterov v |}
  | P_n a => {| sv_lr := sv_lr v; sv_momentum := sv_momentum v; sv_nesterov := string_to_bool a |}
  | P_other => v
  end.
(** lines 45-94: the values that lines 96-98 print *)
Definition test_sgd_options (os : list parsed) : svars :=
  let v := fold_left take_option os {| sv_lr := flit 1 100; sv_momentum := f0; sv_nesterov := false |} in
  if fle (sv_momentum v) f0 && sv_nesterov v
  then {| sv_lr := sv_lr v; sv_momentum := sv_momentum v; sv_nesterov := false |} else v.
(** line 142: SGD_PROPERTIES( .learning_rate=learning_rate ) *)
Definition test_sgd_settings (os : list parsed) : sgd_props :=
  sgd_properties [SA_lr (sv_lr (test_sgd_options os))].
End Options.

(** lines 138-139, with the loss of line 130 *)
Definition test_sgd_metrics : metric_array :=
  Some [get_metric_func (get_loss_name BCE); get_metric_func "categorical_accuracy"; None].
