(** OptCreate.v -- constructors and destructors of the four optimizers: OPTIMIZER_DEFINE and optimizer_free
    (src/optimizer.h:48-75, 126-132), optimizer_check_sanity (src/optimizer.c:44-59) and the functions
    *_optimizer_init and *_optimizer_free of src/SGD.c, src/RMSprop.c, src/adagrad.c and src/adam.c.

    Blocks are on the heap of NpyList.v, as in Create.v.  The fields of the struct are kept in a record, its block is
    only there to be freed.  Simplified: the float fields (learning rate and so on) are copied from the properties, see
    OptInit.v; the fields run_epoch and progress neither; assert is switched on. *)
From Coq Require Import ZArith Bool String Ascii List.
From Verif Require Import Base Logger Npy NpyList Registry Create Loss Names Evaluate.
Import ListNotations.
Local Open Scope nat_scope.

(** the types made by OPTIMIZER_DEFINE: SGD.c:48, RMSprop.c:62, adagrad.c:49, adam.c:56 *)
Inductive okind : Set := K_SGD | K_RMSprop | K_Adagrad | K_Adam.
(** sizeof of the structs: SGD.c:10-22, RMSprop.c:16-30, adagrad.c:15-25, adam.c:16-28 (64 bit, optimizer_t is 56) *)
Definition sizeof_opt (k : okind) : Z := match k with K_SGD => 88 | K_RMSprop => 96 | K_Adagrad => 80 | K_Adam => 88 end.

(** the field metrics: NULL, the array static_metrics of optimizer.c:52, or an array of the user *)
Inductive mfield := MNull | MStatic | MUser (ms : list (option metric)).
(** src/optimizer.h:22-33 and the state arrays, in the order in which they are allocated *)
Record ropt := mk_ropt {
  ro_kind : okind; ro_self : nat; ro_arrays : list nat; ro_loss : option loss; ro_batchsize : Z; ro_metrics : mfield;
  ro_pivot : ptr }.
(** src/optimizer.h:101-106 optimizer_properties_t, the fields that matter here *)
Record oconf := mk_oconf { oc_batchsize : Z; oc_metrics : option (list (option metric)) }.

(** static_metrics, src/optimizer.c:52: two pointers, zero at program start, shared by the whole process *)
Definition statics : Set := list (option metric).
Definition statics0 : statics := [None; None].

(** memset( p, 0, size ) *)
Definition memset0 (h : heap) (a : nat) (size : Z) : res heap :=
  rbind (h_get h a) (fun b => match b with
  | BMem l => if (size <=? Z.of_nat (length l))%Z
              then Ok (set_nth h a (Some (BMem (repeat (Some nul) (Z.to_nat size) ++ skipn (Z.to_nat size) l))))
              else Fault OutOfBounds
  | _ => Fault BadPointer
  end).

Section OptCreate.
  Variable mem : nat -> Z -> bool.

  (** simd_malloc and the assertion that it succeeded: SGD.c:37-38, RMSprop.c:46-47, 50-51, adagrad.c:38-39 *)
  Definition array_new (h : heap) (size : Z) : res (heap * nat) :=
    match malloc mem h size with (h, Some a) => Ok (h, a) | (_, None) => Fault AssertFailed end.
  (** the same followed by memset: SGD.c:39, RMSprop.c:48, 52, adagrad.c:40 *)
  Definition array_zero (h : heap) (size : Z) : res (heap * nat) :=
    rbind (array_new h size) (fun r => rbind (memset0 (fst r) (snd r) size) (fun h => Ok (h, snd r))).

  (** SGD.c:24-40, RMSprop.c:32-53, adagrad.c:27-41, adam.c:30-47: the state arrays.  adam.c allocates both arrays
      before it tests and clears them. *)
  Definition optimizer_init (k : okind) (h : heap) (ls : list clayer) : res (heap * list nat) :=
    rbind (total_params ls 0) (fun n =>
    let size := to_size (n * 4) in
    match k with
    | K_SGD | K_Adagrad => rbind (array_zero h size) (fun r => Ok (fst r, [snd r]))
    | K_RMSprop =>
        rbind (array_zero h size) (fun v => rbind (array_zero (fst v) size) (fun r => Ok (fst r, [snd v; snd r])))
    | K_Adam =>
        match malloc mem h size with
        | (h, r) =>
            match malloc mem h size with
            | (h, s) =>
                match r, s with
                | Some r, Some s => rbind (memset0 h r size) (fun h => rbind (memset0 h s size) (fun h => Ok (h, [r; s])))
                | _, _ => Fault AssertFailed                                        (* 43-44 *)
                end
            end
        end
    end).

  (** src/optimizer.c:44-59 of an optimizer and a network that are not NULL *)
  Definition check_sanity (st : statics) (o : ropt) : res (statics * ropt) :=
    match ro_loss o with
    | None => Fault AssertFailed                                                    (* 48 *)
    | Some l =>
        if (0 <? ro_batchsize o)%Z then                                             (* 49 *)
          let st := [get_metric_func (get_loss_name l); None] in                    (* 53-54 *)
          Ok (st, match ro_metrics o with
                  | MNull => mk_ropt (ro_kind o) (ro_self o) (ro_arrays o) (ro_loss o) (ro_batchsize o) MStatic (ro_pivot o)
                  | _ => o
                  end)
        else Fault AssertFailed
    end.

  (** src/optimizer.h:53-75 name_new( nn, optconf, properties ); ls and lf: the layers and the loss of nn *)
  Definition optimizer_new (k : okind) (h : heap) (st : statics) (ls : list clayer) (lf : option loss) (c : oconf)
    : res (heap * statics * option ropt) :=
    match malloc mem h (sizeof_opt k) with
    | (h, None) => Ok (h, st, None)                                                 (* 56-59 *)
    | (h, Some self) =>
        rbind (optimizer_init k h ls) (fun r =>
        rbind (check_sanity st (mk_ropt k self (snd r) lf (oc_batchsize c)
                 (match oc_metrics c with None => MNull | Some ms => MUser ms end) None)) (fun q =>
        Ok (fst r, fst q, Some (snd q))))
    end.
End OptCreate.

(** simd_free of the state arrays: SGD.c:42-46, RMSprop.c:55-60, adagrad.c:43-47, adam.c:49-54 *)
Fixpoint free_all (h : heap) (l : list nat) : res heap :=
  match l with [] => Ok h | a :: l => rbind (h_free h a) (fun h => free_all h l) end.
(** src/optimizer.h:126-132 *)
Definition optimizer_free (h : heap) (o : ropt) : res heap :=
  rbind (free_all h (ro_arrays o)) (fun h =>
  rbind (match ro_pivot o with Some p => h_free h p | None => Ok h end) (fun h => h_free h (ro_self o))).

(** several optimizers made one after the other by one process *)
Fixpoint optimizers_new (mem : nat -> Z -> bool) (h : heap) (st : statics) (js : list (okind * list clayer * option loss * oconf))
  : res (heap * statics * list (option ropt)) :=
  match js with
  | [] => Ok (h, st, [])
  | (k, ls, lf, c) :: js =>
      rbind (optimizer_new mem k h st ls lf c) (fun r => match r with (h, st, o) =>
      rbind (optimizers_new mem h st js) (fun r => match r with (h, st, os) => Ok (h, st, o :: os) end) end)
  end.
