(** SpecSettings.v -- designated initializers behind default values: the last one given counts. *)
From Coq Require Import List.
Import ListNotations.

(** the last value among the arguments of a macro for which f gives one, otherwise the default d *)
Definition given {A B} (f : A -> option B) (args : list A) (d : B) : B :=
  match flat_map (fun a => match f a with Some b => [b] | None => [] end) (rev args) with b :: _ => b | [] => d end.

Lemma given_snoc A B (f : A -> option B) args a d : given f (args ++ [a]) d = match f a with Some b => b | None => given f args d end.
Proof. unfold given. rewrite rev_app_distr. simpl. destruct (f a); reflexivity. Qed.
(** a member of the struct after all initializers *)
Lemma member A P B (set : P -> A -> P) (p0 : P) (proj : P -> B) (f : A -> option B) :
  (forall p a, proj (set p a) = match f a with Some b => b | None => proj p end) ->
  forall args, proj (fold_left set args p0) = given f args (proj p0).
Proof.
  intros H args. induction args as [|a args IH] using rev_ind; [reflexivity|].
  rewrite fold_left_app, given_snoc. simpl. rewrite H, IH. reflexivity.
Qed.
