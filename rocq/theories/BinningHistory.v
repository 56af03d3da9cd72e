(** The programs of a user: the binning obtained by a history of operations, and when the axes
    can be saved and restored. *)
From Verif Require Import Base AxisModel AxisSpec BinningModel BinningSpec.
Open Scope Z_scope.

Section Run.
  Variables (geo : spheroid -> list point -> Q) (x y : axis) (wgs : option spheroid).
  Fixpoint run (h : history) : outcome binning :=
    match h with
    | Fresh => Ok (new_binning x y wgs)
    | Push h xs ys zs => olet b := run h in push geo b xs ys zs true
    | Merge h h' => olet b := run h in olet c := run h' in add_in_place b c
    | Clear h => olet b := run h in Ok (clear b)
    | Restore h => olet b := run h in b_setstate (b_getstate b)
    end.
End Run.
(** The history saves and restores the object somewhere. *)
Fixpoint restores (h : history) : bool :=
  match h with
  | Fresh => false
  | Push h _ _ _ => restores h
  | Merge h h' => restores h || restores h'
  | Clear h => restores h
  | Restore _ => true
  end.
(** The axes that survive pickling (C10): an irregular axis or a regular one with two points at least;
    an angular axis must cover the whole circle. *)
Definition picklable (a : axis) : Prop := (is_regular a = false \/ 1 < len a) /\ (is_angle a = true -> a_is_circle a = true).
