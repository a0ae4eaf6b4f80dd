(** NamesProofs.v -- the lookups of Names.v find exactly the names of SpecNames.v *)
From Coq Require Import String Bool List.
From Verif Require Import Activation Loss Names SpecNames.
Import ListNotations.
Local Open Scope string_scope.

Ltac by_cases := repeat match goal with |- context [?a =? ?b] => destruct (String.eqb_spec a b); [subst|] end.

Lemma get_loss_iff name l : get_loss_func name = Some l <-> In name (loss_names l).
Proof.
  split.
  - unfold get_loss_func. by_cases; intros E; try discriminate; injection E as <-; cbn; auto.
  - intros H. destruct l; cbn in H; repeat destruct H as [<-|H]; try reflexivity; destruct H.
Qed.
Lemma get_metric_iff name t : get_metric_func name = Some t <-> In name (metric_names t).
Proof.
  split.
  - unfold get_metric_func. by_cases; intros E; try discriminate; injection E as <-; cbn; auto.
  - intros H. destruct t; cbn in H; repeat destruct H as [<-|H]; try reflexivity; destruct H.
Qed.
