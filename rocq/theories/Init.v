(** Init.v -- the initialisation of the parameters, src/neuralnet.c:688-775.

    rand() is a stream of numbers: [rand k] is what the call number k returns.  RAND_MAX is that of glibc.
    Simplified: a block of floats is a list, None is a float that has not been written; the warning of line 767 is
    not modelled; the loop of random_normal gets fuel. *)
From Coq Require Import ZArith Bool String Ascii List.
From Verif Require Import Base Ops Logger NpyList Registry Create.
Import ListNotations.
Local Open Scope nat_scope.

Definition rand_max : Z := 2147483647.

Section Init.
  Context {FO : fops}.
  Variable rand : nat -> Z.

  (** calls of rand so far and the static variables of random_normal *)
  Record rng := mk_rng { r_pos : nat; r_v : F; r_fac : F; r_prev : bool }.
  Definition rng0 : rng := mk_rng 0 f0 f0 false.

  (** src/neuralnet.c:691-694 *)
  Definition uniform_of (r : Z) : F := fsub (fmul (fofZ 2) (fdiv (fofZ r) (fofZ rand_max))) f1.
  Definition random_uniform (s : rng) : res (rng * F) :=
    Ok (mk_rng (S (r_pos s)) (r_v s) (r_fac s) (r_prev s), uniform_of (rand (r_pos s))).

  (** src/neuralnet.c:704-709: the position after the loop, u, v and S *)
  Fixpoint polar_loop (fuel : nat) (k : nat) : res (nat * F * F * F) :=
    match fuel with
    | 0 => Fault OutOfFuel
    | S f => let u := uniform_of (rand k) in
             let v := uniform_of (rand (S k)) in
             let s := fadd (fmul u u) (fmul v v) in
             if fge s f1 then polar_loop f (S (S k)) else Ok (S (S k), u, v, s)
    end.
  Definition polar_factor (s : F) : F := fsqrt (fdiv (fmul (fneg (fofZ 2)) (flog s)) s).   (* 711 *)
  (** src/neuralnet.c:696-717 *)
  Definition random_normal (fuel : nat) (s : rng) : res (rng * F) :=
    if r_prev s then Ok (mk_rng (r_pos s) (r_v s) (r_fac s) false, fmul (r_v s) (r_fac s))
    else rbind (polar_loop fuel (r_pos s)) (fun q => match q with (k, u, v, sq) =>
         let fac := polar_factor sq in Ok (mk_rng k v fac true, fmul u fac) end).

  (** src/neuralnet.c:719-724 *)
  Fixpoint fill_data (n : nat) (dist : rng -> res (rng * F)) (scale : F) (s : rng) (data : list (option F)) : res (rng * list (option F)) :=
    match n with
    | 0 => Ok (s, data)
    | S n => rbind (dist s) (fun r =>
             match data with
             | [] => Fault OutOfBounds
             | _ :: rest => rbind (fill_data n dist scale (fst r) rest) (fun q => Ok (fst q, Some (fmul (snd r) scale) :: snd q))
             end)
    end.
  (** memset of n floats to 0 *)
  Definition zero_data (n : nat) (data : list (option F)) : res (list (option F)) :=
    if length data <? n then Fault OutOfBounds else Ok (repeat (Some f0) n ++ skipn n data).

  Record ilayer := mk_ilayer { il_in : Z; il_out : Z; il_func : fn; il_w : list (option F); il_b : list (option F) }.

  (** src/neuralnet.c:743 and 755, 745 and 763 *)
  Definition fill_xavier (s : rng) (l : ilayer) : res (rng * list (option F)) :=
    rbind (mul_int (il_in l) (il_out l)) (fun n => rbind (to_int (il_in l + il_out l)) (fun m =>
    fill_data (Z.to_nat n) random_uniform (fsqrt (fdiv (fofZ 6) (fofZ m))) s (il_w l))).
  Definition fill_kaiming (fuel : nat) (s : rng) (l : ilayer) : res (rng * list (option F)) :=
    rbind (mul_int (il_in l) (il_out l)) (fun n =>
    fill_data (Z.to_nat n) (random_normal fuel) (fsqrt (fdiv (fofZ 2) (fofZ (il_in l)))) s (il_w l)).
  Definition fill_normal (fuel : nat) (s : rng) (l : ilayer) : res (rng * list (option F)) :=
    rbind (mul_int (il_in l) (il_out l)) (fun n => fill_data (Z.to_nat n) (random_normal fuel) f1 s (il_w l)).
  Definition streq (a : bytes) (b : string) : bool := bytes_eqb a (chars b).
  Definition one_of (l : list string) (s : bytes) : bool := existsb (streq s) l.

  (** src/neuralnet.c:734-774: the layer; initializer is the string of line 738-740 *)
  Definition init_layer (fuel : nat) (st : records) (initializer : bytes) (s : rng) (l : ilayer) : res (rng * ilayer) :=
    let name := get_activation_name st (il_func l) in
    rbind (if streq initializer "xavier" then fill_xavier s l
           else if streq initializer "kaiming" then fill_kaiming fuel s l
           else
             let x := one_of ["sigmoid"; "tanh"; "softmax"; "hard_sigmoid"; "softsign"]%string name in
             let k := one_of ["relu"; "softplus"]%string name in
             rbind (if x then fill_xavier s l else Ok (s, il_w l)) (fun r =>                             (* 752-758 *)
             let l := mk_ilayer (il_in l) (il_out l) (il_func l) (snd r) (il_b l) in
             rbind (if k then fill_kaiming fuel (fst r) l else Ok (fst r, il_w l)) (fun r =>             (* 760-766 *)
             let l := mk_ilayer (il_in l) (il_out l) (il_func l) (snd r) (il_b l) in
             if x || k then Ok r else fill_normal fuel (fst r) l))) (fun r =>                            (* 768-771 *)
    rbind (zero_data (Z.to_nat (il_out l)) (il_b l)) (fun b =>
    Ok (fst r, mk_ilayer (il_in l) (il_out l) (il_func l) (snd r) b))).

  (** src/neuralnet.c:730-775; initializers: NULL, or an array of strings *)
  Fixpoint init_layers (fuel : nat) (st : records) (inits : option (list (option bytes))) (s : rng) (ls : list ilayer) : res (rng * list ilayer) :=
    match ls with
    | [] => Ok (s, [])
    | l :: ls =>
        rbind (match inits with
               | None => Ok []
               | Some [] => Fault OutOfBounds
               | Some (None :: _) => Fault BadPointer
               | Some (Some i :: _) => Ok i
               end) (fun i =>
        rbind (init_layer fuel st i s l) (fun r =>
        rbind (init_layers fuel st (option_map (fun l => tl l) inits) (fst r) ls) (fun q => Ok (fst q, snd r :: snd q))))
    end.
  Definition initialize (fuel : nat) (st : records) (inits : option (list (option bytes))) (s : rng) (ls : list ilayer) := init_layers fuel st inits s ls.
End Init.
