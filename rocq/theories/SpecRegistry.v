(** SpecRegistry.v -- which function a name stands for. *)
From Coq Require Import Bool String Ascii List.
From Verif Require Import Base Activation Registry SpecLog.
Import ListNotations.
Local Open Scope nat_scope.

(** symbol and library of a name of the form symbol@library, where the symbol has no @ *)
Definition names_symbol (name symbol library : list ascii) : Prop :=
  name = symbol ++ "@"%char :: library /\ ~ In "@"%char symbol.

Section Spec.
  Variable lib_opens : list ascii -> bool.
  Variable dlsym : list ascii -> list ascii -> option (option nat).
  (** the name stands for the function *)
  Inductive named : list ascii -> fn -> Prop :=
  | named_softplus : named (txt "softplus") (Builtin Softplus)
  | named_softsign : named (txt "softsign") (Builtin Softsign)
  | named_hard_sigmoid : named (txt "hard_sigmoid") (Builtin Hard_sigmoid)
  | named_exponential : named (txt "exponential") (Builtin Exponential)
  | named_linear : named (txt "linear") (Builtin Linear)
  | named_relu : named (txt "relu") (Builtin Relu)
  | named_softmax : named (txt "softmax") (Builtin Softmax)
  | named_sigmoid : named (txt "sigmoid") (Builtin Sigmoid)
  | named_tanh : named (txt "tanh") (Builtin Tanh)
  | named_symbol name sy li n : names_symbol name sy li -> lib_opens li = true -> dlsym li sy = Some (Some n) -> named name (Dyn n).
  (** a name whose symbol, if its library can be opened, has at most 244 characters *)
  Definition short_symbol (name : list ascii) : Prop :=
    forall sy li, names_symbol name sy li -> lib_opens li = true -> length sy <= 244.
End Spec.
