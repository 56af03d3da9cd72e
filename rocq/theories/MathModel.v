(** Model of include/pyinterp/detail/math.hpp (remainder, normalize_angle,
    is_same) on unbounded integers and exact rationals. *)
From Verif Require Import Base.
Open Scope Z_scope.

(** detail/math.hpp:101-106, [remainder] for integral types:
    [result = x % y; result != 0 && (result ^ y) < 0 ? result + y : result].
    C++ [%] truncates towards zero: [Z.rem].  [y = 0] is undefined behaviour in
    C++; callers in this model always pass an axis length > 0.  Simplification:
    unbounded integers. *)
Definition rem_int (x y : Z) : Z :=
  let r := Z.rem x y in
  if negb (r =? 0) && (Z.lxor r y <? 0) then r + y else r.

(** [std::round]: nearest integer, halfway cases away from zero. *)
Definition round_away (q : Q) : Z :=
  if Qle_bool 0 q then Qfloor (q + (1 # 2)) else - Qfloor (- q + (1 # 2)).

(** [std::rint]-style rounding used by [std::remainder]: nearest integer,
    halfway cases to even. *)
Definition round_even (q : Q) : Z :=
  let f := Qfloor q in
  let d := (q - inject_Z f)%Q in
  if Qltb d (1 # 2) then f
  else if Qltb (1 # 2) d then f + 1
  else if Z.even f then f else f + 1.

(** C++ [std::remainder(x, y)] in exact arithmetic: [x - n*y] where [n] is the
    integer nearest to [x/y], halfway cases to even. *)
Definition std_remainder (x y : Q) : Q := (x - inject_Z (round_even (x / y)) * y)%Q.

(** detail/math.hpp:111-119, [remainder] for floating types, exact arithmetic. *)
Definition rem_Q (x y : Q) : Q :=
  let r := std_remainder x y in
  if Qltb r 0 then (r + y)%Q else r.

(** detail/math.hpp:127-130, [normalize_angle(x, min, circle)]. *)
Definition normalize_angle (x mn circle : Q) : Q := (rem_Q (x - mn) circle + mn)%Q.

(** detail/math.hpp:278-290, [is_same(a, b, epsilon)] for floating types:
    absolute test first, then the test relative to the larger magnitude. *)
Definition is_same (a b epsilon : Q) : bool :=
  let diff := Qabs (a - b) in
  if Qle_bool diff epsilon then true
  else Qltb diff (Qmax (Qabs a) (Qabs b) * epsilon).
