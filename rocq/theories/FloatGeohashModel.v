(** Model of the encoding of a point into a geohash in the arithmetic of the machine: binary64 numbers of Flocq, every operation
    rounded to the nearest even.  GeohashModel.v has the same functions in exact arithmetic, and the operations on the bits.

    lib/geohash/int64.cpp:63-113,160-168,245-252.
    Assumption: the compiler evaluates each operation separately (no fused multiply-add). *)
From Coq Require Import ZArith.
From Flocq Require Import Core BinarySingleNaN.
From Verif Require Import Base GeohashModel FloatAxisModel FloatGridModel FloatCircleModel.
Open Scope Z_scope.

(** [static_cast<uint32_t>]: towards zero, undefined out of the range of the type. *)
Definition trunc_b64 (x : b64) : option Z :=
  match x with
  | B754_zero _ => Some 0
  | B754_finite s m e _ =>
      let v := if 0 <=? e then Zpos m * 2 ^ e else Zpos m / 2 ^ (- e) in
      Some (if s then - v else v)
  | _ => None
  end.
Definition to_uint32 (x : b64) : outcome Z :=
  match trunc_b64 x with
  | Some v => if (0 <=? v) && (v <? 4294967296) then Ok v else UB "double to uint32_t out of range"
  | None => UB "double to uint32_t out of range"
  end.

(** int64.cpp:75-81. *)
Definition f_encode_range (x r : b64) : outcome Z :=
  if b_leb r x then Ok 4294967295
  else to_uint32 (b_mult (b_div (b_plus x r) (b_mult (b_of_Z 2) r)) (b_of_Z 4294967296)).

(** :84-90.  [inv_exp232] is [1.0 / exp232]. *)
Definition f_decode_range (x : Z) (r : b64) : b64 :=
  if x =? 4294967295 then r
  else b_minus (b_mult (b_mult (b_of_Z 2) r) (b_mult (b_of_Z x) (b_div (b_of_Z 1) (b_of_Z 4294967296)))) r.

(** :93-95. *)
Definition f_encode_portable (lat lon : b64) : outcome Z :=
  olet x := f_encode_range lat (b_of_Z 90) in
  olet y := f_encode_range lon (b_of_Z 180) in
  Ok (interleave x y).

(** The bits of a double (a quiet NaN for the NaN). *)
Definition sign_bit (s : bool) : Z := if s then 2 ^ 63 else 0.
Definition bits_b64 (x : b64) : Z :=
  match x with
  | B754_zero s => sign_bit s
  | B754_infinity s => sign_bit s + 2047 * 2 ^ 52
  | B754_nan => 2047 * 2 ^ 52 + 2 ^ 51
  | B754_finite s m e _ => sign_bit s + (if Zpos m <? 2 ^ 52 then Zpos m else (e + 1075) * 2 ^ 52 + (Zpos m - 2 ^ 52))
  end.
(** :98-113. *)
Definition f_shrq (x : b64) : Z := Z.shiftr (bits_b64 x) 20.

(** The literals 0.005555555555555556, 0.002777777777777778 and 1.5. *)
Definition lit_lat : b64 := @B754_finite 53 1024 false 6405119470038039 (-60) eq_refl.
Definition lit_lon : b64 := @B754_finite 53 1024 false 6405119470038039 (-61) eq_refl.
Definition lit_3_2 : b64 := @B754_finite 53 1024 false 6755399441055744 (-52) eq_refl.
(** :160-168. *)
Definition f_mantissa (x r lit : b64) : Z := if b_eqb x r then 0x3FFFFFFFFFF else f_shrq (b_plus lit_3_2 (b_mult x lit)).
Definition f_encode_bmi2 (lat lon : b64) : outcome Z :=
  let y := f_mantissa lat (b_of_Z 90) lit_lat in
  let x := f_mantissa lon (b_of_Z 180) lit_lon in
  Ok (Z.lor (shl64 (pdepq x 0x5555555555555555) 1) (pdepq y 0x5555555555555555)).

(** :190-194. *)
Definition f_encoder (bmi2 : bool) : b64 -> b64 -> outcome Z := if bmi2 then f_encode_bmi2 else f_encode_portable.
(** :245-252. *)
Definition f_gh_encode (bmi2 : bool) (lon lat : b64) (precision : Z) : outcome Z :=
  olet result := f_encoder bmi2 lat lon in
  if precision =? 64 then Ok result
  else if (1 <=? precision) && (precision <? 64)
       then Ok (Z.shiftr result (64 - precision))
       else UB "shift count".
