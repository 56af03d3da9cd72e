(** What a delayed computation returns, whatever the shape of the tree of additions and the order in
    which the workers execute it. *)
From Verif Require Import Base DaskModel.

(** The references of a tree, from left to right, and its number of additions. *)
Fixpoint fringe (w : work) : list nat := match w with Ref i => [i] | Sum p q => fringe p ++ fringe q end.
Fixpoint additions (w : work) : nat := match w with Ref _ => 0 | Sum p q => S (additions p + additions q) end.
(** A tree that adds [n] objects in order. *)
Definition tree_of (n : nat) (w : work) : Prop := fringe w = seq 0 n.

(** Every execution is finite, never gets stuck on an error and ends with the value [v]. *)
Definition returns {I : Type} (add : list I -> nat -> nat -> outcome (list I * nat)) (h : list I) (w : work) (v : I) : Prop :=
  forall n h' w', runs add n (h, w) (h', w') ->
    (n <= additions w)%nat /\
    ((exists s, step add (h', w') s) \/ (exists k, w' = Ref k /\ nth_error h' k = Some v)).
