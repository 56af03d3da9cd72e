(** Binary64 version of the conversion of one coordinate (int64.cpp:75-81 and
    :98-113, :160-168), on the executable IEEE-754 specification of the standard
    library.  Used for counter-examples caused by rounding. *)
From Verif Require Import Base MathModelFloat.
From Coq Require Import Floats.SpecFloat.
Open Scope Z_scope.

Definition b64_mul : spec_float -> spec_float -> spec_float := SFmul 53 1024.
Definition b64_div : spec_float -> spec_float -> spec_float := SFdiv 53 1024.

(** Truncation of a finite binary64 number. *)
Definition b64_trunc (x : spec_float) : Z :=
  let v := b64_value x in Z.quot (Qnum v) (Z.pos (Qden v)).

(** int64.cpp:75-81. *)
Definition b64_encode_range (x r : spec_float) : outcome Z :=
  if SFleb r x then Ok 4294967295
  else
    let p := b64_div (b64_add x r) (b64_mul (b64_of_Z 2) r) in
    let v := b64_trunc (b64_mul p (b64_of_Z 4294967296)) in
    if (0 <=? v) && (v <? 4294967296) then Ok v else UB "double to uint32_t out of range".

(** int64.cpp:98-113: bits 20..51 of the mantissa of a positive normal number. *)
Definition b64_shrq_low32 (x : spec_float) : Z :=
  match x with
  | S754_finite _ m _ => Z.shiftr (Z.pos m) 20 mod 4294967296
  | _ => 0
  end.

(** 0.005555555555555556 = 0x1.6c16c16c16c17p-8 (int64.cpp:162). *)
Definition b64_inv180 : spec_float := S754_finite false 6405119470038039 (-60).
Definition b64_three_half : spec_float := S754_finite false 6755399441055744 (-52).

(** int64.cpp:161-163, latitude part. *)
Definition b64_encode_lat_bmi2 (lat : spec_float) : Z :=
  if SFeqb lat (b64_of_Z 90) then 4294967295
  else b64_shrq_low32 (b64_add b64_three_half (b64_mul lat b64_inv180)).

(** The largest binary64 number below 90: 0x1.67fffffffffffp+6. *)
Definition b64_below_90 : spec_float := S754_finite false 6333186975989759 (-46).
