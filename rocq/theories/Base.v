(** Common definitions: outcomes of C++ code and small helpers.  *)
From Coq Require Export String.
From Coq Require Export List ZArith QArith Lia Bool.
From Coq Require Export Qabs Qround Qminmax.
Export ListNotations.
Open Scope Z_scope.

(** Result of running a piece of C++ code: a value, a C++ exception, or
    undefined behaviour (out-of-bounds access, division by zero, shift by the
    word size ...).  Undefined behaviour is never given a value. *)
Inductive outcome (A : Type) : Type :=
| Ok (a : A)
| Throw (why : string)
| UB (why : string).
Arguments Ok {A} a.
Arguments Throw {A} why%string.
Arguments UB {A} why%string.

Definition obind {A B : Type} (m : outcome A) (f : A -> outcome B) : outcome B :=
  match m with
  | Ok a => f a
  | Throw w => Throw w
  | UB w => UB w
  end.
Notation "'olet' x ':=' m 'in' k" := (obind m (fun x => k))
  (at level 200, x pattern, m at level 100, k at level 200, right associativity).

(** [znth l i] is the checked access [l[i]]; [None] when [i] is outside. *)
Definition znth {A : Type} (l : list A) (i : Z) : option A :=
  if i <? 0 then None else nth_error l (Z.to_nat i).

(** Length as an integer. *)
Definition zlen {A : Type} (l : list A) : Z := Z.of_nat (length l).

(** Strict boolean comparison on rationals (the standard library has only
    [Qle_bool] and [Qeq_bool]). *)
Definition Qltb (x y : Q) : bool := negb (Qle_bool y x).

(** Checked in-place store [l[i] = v]; unchanged when [i] is out of range
    (callers check). *)
Fixpoint set_nth {A : Type} (n : nat) (v : A) (l : list A) : list A :=
  match l, n with
  | [], _ => []
  | _ :: t, O => v :: t
  | h :: t, S n' => h :: set_nth n' v t
  end.
