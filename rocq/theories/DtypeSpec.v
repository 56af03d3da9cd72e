(** What is expected of the grids made from arrays of numpy. *)
From Verif Require Import Base DtypeModel.
Local Open Scope Z_scope.

(** The values an array of integers can hold. *)
Definition int_range (t : dtype) : option (Z * Z) :=
  match t with
  | I8 => Some (-128, 127) | U8 => Some (0, 255) | I16 => Some (-32768, 32767) | U16 => Some (0, 65535)
  | I32 => Some (-2147483648, 2147483647) | U32 => Some (0, 4294967295)
  | I64 => Some (-9223372036854775808, 9223372036854775807) | U64 => Some (0, 18446744073709551615)
  | F64 | F32 | OtherType => None
  end.
Definition well_typed (b : buffer) : Prop :=
  match b_data b with
  | Ints l => exists lo hi, int_range (b_type b) = Some (lo, hi) /\ forall n, In n l -> lo <= n <= hi
  | Reals l => b_type b = F64 \/ b_type b = F32
  end.
(** The numbers of the contents, NaN aside. *)
Definition numbers (c : contents) : list (option Q) :=
  match c with Ints l => map (fun n => Some (inject_Z n)) l | Reals l => l end.

(** [y] is a binary number of at most [p] significant bits. *)
Definition has_bits (p y : Z) : Prop := exists k e, y = k * 2 ^ e /\ Z.abs k < 2 ^ p /\ 0 <= e.
(** [y] is one of the numbers of [p] bits nearest to [n]. *)
Definition nearest_bits (p n y : Z) : Prop :=
  has_bits p y /\ forall z, has_bits p z -> Z.abs (n - y) <= Z.abs (n - z).

(** The type of array whose memory is used directly. *)
Definition stored_as_is (t : dtype) : Prop := t = F64 \/ t = F32 \/ t = I8 \/ t = U8.
