(** Binary64 version of detail/math.hpp:101-130 using the standard library's
    executable specification of IEEE-754 arithmetic (Coq.Floats.SpecFloat, no
    axiom, no primitive float).  Only finite values are needed. *)
From Verif Require Import Base MathModel.
From Coq Require Import Floats.SpecFloat.
Open Scope Z_scope.

Definition b64_add : spec_float -> spec_float -> spec_float := SFadd 53 1024.
Definition b64_sub : spec_float -> spec_float -> spec_float := SFsub 53 1024.

(** Exact value of a finite binary64 number. *)
Definition b64_value (x : spec_float) : Q :=
  match x with
  | S754_finite s m e =>
      let z := if s then Z.neg m else Z.pos m in
      if e >=? 0 then inject_Z (z * 2 ^ e) else (z # Z.to_pos (2 ^ (- e)))
  | _ => 0%Q
  end.

(** Nearest binary64 number of a dyadic rational (denominator a power of two). *)
Definition b64_of_dyadic (q : Q) : spec_float :=
  let r := Qred q in
  binary_normalize 53 1024 (Qnum r) (- Z.log2 (Z.pos (Qden r))) false.

(** [std::remainder] is exact in IEEE-754: compute it on the exact values. *)
Definition b64_std_remainder (x y : spec_float) : spec_float :=
  b64_of_dyadic (std_remainder (b64_value x) (b64_value y)).

(** detail/math.hpp:111-119. *)
Definition b64_remainder (x y : spec_float) : spec_float :=
  let r := b64_std_remainder x y in
  if SFltb r (S754_zero false) then b64_add r y else r.

(** detail/math.hpp:127-130. *)
Definition b64_normalize_angle (x mn circle : spec_float) : spec_float :=
  b64_add (b64_remainder (b64_sub x mn) circle) mn.

Definition b64_of_Z (z : Z) : spec_float := binary_normalize 53 1024 z 0 false.
