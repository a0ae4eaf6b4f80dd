(** SpecCreate.v -- what a network in memory is. *)
From Coq Require Import ZArith Bool String Ascii List.
From Verif Require Import Base Npy NpyList SpecList Registry Create SpecRegistry SpecLog.
Import ListNotations.
Local Open Scope nat_scope.

(** consecutive elements *)
Fixpoint steps (sizes : list Z) : list (Z * Z) :=
  match sizes with a :: ((b :: _) as r) => (a, b) :: steps r | _ => [] end.

Definition field_blocks (p : fptr) : list nat := match p with FPtr a => [a] | _ => [] end.
Definition layer_blocks (l : clayer) : list nat := field_blocks (cl_w l) ++ field_blocks (cl_b l).
Definition net_blocks (nn : cnet) : list nat := cn_self nn :: cn_arr nn :: flat_map layer_blocks (cn_layers nn).

(** block p is alive and has n bytes *)
Definition has_bytes (h : heap) (p : fptr) (n : Z) : Prop :=
  exists a l, p = FPtr a /\ holds h a (BMem l) /\ Z.of_nat (length l) = n.
(** a layer from n_in to n_out whose blocks have the right sizes *)
Definition is_layer (h : heap) (n_in n_out : Z) (l : clayer) : Prop :=
  cl_in l = n_in /\ cl_out l = n_out /\ has_bytes h (cl_w l) (n_in * n_out * 4) /\ has_bytes h (cl_b l) (n_out * 4).
(** a network of the sizes: its blocks are alive, and none is used twice *)
Definition is_net (h : heap) (sizes : list Z) (nn : cnet) : Prop :=
  Forall2 (fun s l => is_layer h (fst s) (snd s) l) (steps sizes) (cn_layers nn)
  /\ live h (cn_self nn) /\ live h (cn_arr nn) /\ NoDup (net_blocks nn).

Section Spec.
  Variable lib_opens : list ascii -> bool.
  Variable dlsym : list ascii -> list ascii -> option (option nat).
  (** the function of a layer: the named one, linear if there is no name or nothing of the name *)
  Definition function_for (name : option (list ascii)) (f : fn) : Prop :=
    match name with
    | None => f = Builtin Activation.Linear
    | Some s => named lib_opens dlsym s f \/ ((forall g, ~ named lib_opens dlsym s g) /\ f = Builtin Activation.Linear)
    end.
End Spec.
