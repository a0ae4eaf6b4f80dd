(** Registry.v -- lookup of activation functions by name, including functions of shared objects,
    src/activation.c:76-302.

    A function pointer is one of the nine built-in functions or the address of a function of a shared object.
    dlopen and dlsym are given by two functions, which do not change during the run: lib_opens says which libraries
    can be opened, dlsym gives the address of a symbol in a library, or the error message that dlerror returns.
    Simplified: malloc succeeds; atexit and dlclose have no visible effect before the process ends. *)
From Coq Require Import ZArith Bool String Ascii List.
From Verif Require Import Base Activation Logger NpyList.
Import ListNotations.
Local Open Scope nat_scope.

Inductive fn := Builtin (a : act) | Dyn (n : nat).
Definition act_eq_dec (a b : act) : {a = b} + {a <> b}.
Proof. decide equality. Defined.
Definition fn_eq_dec (f g : fn) : {f = g} + {f <> g}.
Proof. decide equality; [apply act_eq_dec|apply Nat.eq_dec]. Defined.

(** src/activation.c:80-87 activation_record_t; NULL pointers are None *)
Record record := mk_record { rc_name : bytes; rc_func : option fn; rc_deriv : option nat }.
(** src/activation.c:89 the static list *)
Definition records := list record.

(** the names of the built-in functions, in the order of src/activation.c:232-240 and 253-261 *)
Definition builtin_names : list (string * act) :=
  [("softplus", Softplus); ("softsign", Softsign); ("hard_sigmoid", Hard_sigmoid); ("exponential", Exponential);
   ("linear", Linear); ("relu", Relu); ("softmax", Softmax); ("sigmoid", Sigmoid); ("tanh", Tanh)]%string.

(** strcmp of the name with the names of the list, src/activation.c:226-227, 232-240 *)
Fixpoint find_builtin (l : list (string * act)) (name : bytes) : option act :=
  match l with
  | (s, a) :: l => if bytes_eqb name (chars s) then Some a else find_builtin l name
  | [] => None
  end.

(** src/activation.c:104-114: symbol@library is split at the first @ *)
Fixpoint split_at (s : bytes) : option (bytes * bytes) :=
  match s with
  | [] => None
  | c :: r => if Ascii.eqb c "@" then Some ([], r)
              else match split_at r with Some (a, b) => Some (c :: a, b) | None => None end
  end.

Section Registry.
  Variable lib_opens : bytes -> bool.
  (** dlsym: None is an error, Some None the value NULL *)
  Variable dlsym : bytes -> bytes -> option (option nat).

  (** src/activation.c:91-177 get_activation_func_dynamic; derivative_symbol has 256 bytes *)
  Definition get_func_dynamic (st : records) (name : bytes) : res (records * option fn) :=
    match split_at name with
    | None => Ok (st, None)                                                       (* 104-110 *)
    | Some (symbol, library) =>
        if negb (lib_opens library) then Ok (st, None)                            (* 116-124 *)
        else
          let dsym := symbol ++ chars "_derivative" in
          if 256 <? length dsym + 1 then Fault OutOfBounds                        (* 126-127 *)
          else match dlsym library symbol with
               | None => Ok (st, None)                                            (* 129-135 *)
               | Some f =>
                   let f := option_map Dyn f in
                   let d := match dlsym library dsym with Some d => d | None => None end in   (* 154 *)
                   Ok (st ++ [mk_record name f d], f)                             (* 163-176 *)
               end
    end.

  (** src/activation.c:229-246 get_activation_func *)
  Definition get_activation_func (st : records) (name : bytes) : res (records * option fn) :=
    match find_builtin builtin_names name with
    | Some a => Ok (st, Some (Builtin a))
    | None => get_func_dynamic st name
    end.

  Fixpoint builtin_name (l : list (string * act)) (a : act) : option bytes :=
    match l with
    | (s, b) :: l => if act_eq_dec a b then Some (chars s) else builtin_name l a
    | [] => None
    end.
  Definition is_func (f : fn) (r : record) : bool :=
    match rc_func r with Some g => if fn_eq_dec f g then true else false | None => false end.
  Definition unknown : bytes := chars "(unknown)".
  (** src/activation.c:251-277 get_activation_name of a pointer that is not NULL *)
  Definition get_activation_name (st : records) (f : fn) : bytes :=
    match match f with Builtin a => builtin_name builtin_names a | Dyn _ => None end with
    | Some s => s
    | None => match find (is_func f) st with Some r => rc_name r | None => unknown end
    end.

  Inductive dfn := DBuiltin (a : act) | DDyn (n : nat).
  (** src/activation.c:197-207, 285-301 get_activation_derivative; None is NULL *)
  Definition get_activation_derivative (st : records) (f : fn) : option dfn :=
    match f with
    | Builtin a => Some (DBuiltin a)
    | Dyn _ => match find (is_func f) st with Some r => option_map DDyn (rc_deriv r) | None => None end
    end.

  (** a sequence of lookups by name; the state and what each returned *)
  Fixpoint lookups (st : records) (names : list bytes) : res (records * list (option fn)) :=
    match names with
    | [] => Ok (st, [])
    | s :: names => rbind (get_activation_func st s) (fun r =>
                    rbind (lookups (fst r) names) (fun r' => Ok (fst r', snd r :: snd r')))
    end.
End Registry.
