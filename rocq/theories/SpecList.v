(** SpecList.v -- what a list of arrays in memory is. *)
From Coq Require Import ZArith Bool String Ascii List.
From Verif Require Import Base Npy NpyList SpecNpy.
Import ListNotations.
Local Open Scope nat_scope.

(** an element of a list: the addresses of its four blocks, the array and its name *)
Record cell := mk_cell { c_node : nat; c_arr : nat; c_data : nat; c_name : nat; c_m : npy; c_str : list ascii }.
Definition cell_blocks (c : cell) : list nat := [c_node c; c_arr c; c_data c; c_name c].
Definition blocks_of (cs : list cell) : list nat := flat_map cell_blocks cs.

(** block x of the heap is alive and is b *)
Definition holds (h : heap) (x : nat) (b : block) : Prop := nth_error h x = Some (Some b).
(** block x of the heap is alive *)
Definition live (h : heap) (x : nat) : Prop := exists b, holds h x b.
(** block x of the heap has been freed *)
Definition dead (h : heap) (x : nat) : Prop := nth_error h x = Some None.

(** the elements one meets from p on *)
Inductive chain (h : heap) : ptr -> list cell -> Prop :=
| chain_nil : chain h None []
| chain_cons c next cs :
    holds h (c_node c) (BNode (Some (c_arr c)) (Some (c_name c)) next) ->
    holds h (c_arr c) (BArr (c_m c) (c_data c)) -> live h (c_data c) -> holds h (c_name c) (BName (c_str c)) ->
    chain h next cs -> chain h (Some (c_node c)) (c :: cs).

(** a list and its arrays; no block is used twice *)
Definition is_list (h : heap) (p : ptr) (cs : list cell) : Prop := chain h p cs /\ NoDup (blocks_of cs).
Definition names_of (cs : list cell) : list (list ascii) := map c_str cs.
Definition arrays_of (cs : list cell) : list npy := map c_m cs.

(** the same array: data, shape, type, element size, order and byte order *)
Definition same_array (m m' : npy) : Prop :=
  np_data m' = np_data m /\ np_ndim m' = np_ndim m /\ stored_dims m' = stored_dims m
  /\ np_type m' = np_type m /\ np_elem m' = np_elem m /\ np_fortran m' = np_fortran m
  /\ byte_order m (np_endian m').

(** a name without printf conversions *)
Definition plain (s : list ascii) : Prop := ~ In "%"%char s.
