(** SpecBits.v -- float-level specification of the forward pass, for any float operations.

    Nothing here refers to memory, addresses or builds. *)
From Coq Require Import List Permutation ZArith.
From Verif Require Import Ops Activation.
Import ListNotations.

Section SpecBits.
Context {FO : fops}.
Variable vexp : F -> F.    (* the exp used in vector registers *)

(** output j of bias + input*weight (m outputs, w row-major): features in order, zero features skipped *)
Definition lin_col (m : nat) (w b xs : list F) (j : nat) : F :=
  fold_left (fun acc i => let x := nth i xs f0 in
                          if feq x f0 then acc else fadd acc (fmul x (nth (i * m + j) w f0)))
            (seq 0 (length xs)) (nth j b f0).
Definition lin (m : nat) (w b xs : list F) : list F := map (lin_col m w b xs) (seq 0 m).

(** the same for all builds: y is acc plus the products (x, w) in order, zero features skipped, each step rounded
    after the product and the sum, or (only if [fma]) fused *)
Inductive col_rel (fma : bool) : F -> list (F * F) -> F -> Prop :=
| col_nil acc : col_rel fma acc [] acc
| col_zero acc x w l y : feq x f0 = true -> col_rel fma acc l y -> col_rel fma acc ((x, w) :: l) y
| col_plain acc x w l y : feq x f0 = false -> col_rel fma (fadd acc (fmul x w)) l y -> col_rel fma acc ((x, w) :: l) y
| col_fused acc x w l y : fma = true -> feq x f0 = false -> col_rel fma (ffma w x acc) l y ->
    col_rel fma acc ((x, w) :: l) y.
(** the weights of output j *)
Definition column (m : nat) (w : list F) (n j : nat) : list F := map (fun i => nth (i * m + j) w f0) (seq 0 n).
Definition lin_rel (fma : bool) (m : nat) (w b xs zs : list F) : Prop :=
  length zs = m /\ forall j, j < m -> col_rel fma (nth j b f0) (combine xs (column m w (length xs) j)) (nth j zs f0).

(** s is a sum of the list, in some order and association, possibly with additional zeros *)
Inductive is_sum : list F -> F -> Prop :=
| sum_zero : is_sum [] f0
| sum_one x : is_sum [x] x
| sum_add l1 l2 l a b : is_sum l1 a -> is_sum l2 b -> Permutation (l1 ++ l2) l -> is_sum l (fadd a b).

(** [flt] is irreflexive and transitive, as < is on the reals and on binary32 (NaN compares false) *)
Definition strict_order : Prop :=
  (forall a : F, flt a a = false) /\ (forall a b c : F, flt a b = true -> flt b c = true -> flt a c = true).
(** ys = g(zs): each element by the scalar formula or by the formula of the vector code *)
Definition elem (s v : F -> F) (zs ys : list F) : Prop := Forall2 (fun z y => y = s z \/ y = v z) zs ys.
Definition act_rel (g : act) (zs ys : list F) : Prop :=
  match g with
  | Linear => ys = zs
  | Exponential => ys = map fexp zs
  | Softplus => ys = map (fun x => flog (fadd (fexp x) f1)) zs
  | Softsign => ys = map (fun x => fdiv x (fadd (fabs x) f1)) zs
  | Hard_sigmoid => ys = map (fun x => if flt x (flit (-5)%Z 2%Z) then f0 else if flt (flit 5%Z 2%Z) x then f1
                                       else fadd (fmul (flit 1%Z 5%Z) x) (flit 1%Z 2%Z)) zs
  | Relu => elem (fun x => fmaxf f0 x) (fun x => if flt x f0 then f0 else x) zs ys
  | Sigmoid => elem (fun x => fdiv f1 (fadd f1 (fexp (fneg x)))) (fun x => fdiv f1 (fadd f1 (vexp (fsub f0 x)))) zs ys
  | Tanh => elem ftanh (fun x => fadd (fneg f1) (fdiv (fofZ 2%Z) (fadd f1 (vexp (fmul (fneg (fofZ 2%Z)) x))))) zs ys
  | Softmax => exists mx es s,
      In mx zs /\ (strict_order -> forall z, In z zs -> flt mx z = false) /\
      elem (fun x => fexp (fsub x mx)) (fun x => vexp (fsub x mx)) zs es /\
      is_sum es s /\ ys = map (fun e => fdiv e s) es
  end.

(** a network as the list of (activation, weights, biases); ys is a prediction for xs *)
Fixpoint net_rel (fma : bool) (net : list (act * list F * list F)) (xs ys : list F) : Prop :=
  match net with
  | [] => ys = xs
  | (g, w, b) :: r => exists zs hs, lin_rel fma (length b) w b xs zs /\ act_rel g zs hs /\ net_rel fma r hs ys
  end.
(** the same for builds without fused multiply-add: the linear part is a function *)
Fixpoint net_rel_nofma (net : list (act * list F * list F)) (xs ys : list F) : Prop :=
  match net with
  | [] => ys = xs
  | (g, w, b) :: r => exists hs, act_rel g (lin (length b) w b xs) hs /\ net_rel_nofma r hs ys
  end.
End SpecBits.
