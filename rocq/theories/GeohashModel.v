(** Model of the geohash code:
    include/pyinterp/geohash/base32.hpp, lib/geohash/base32.cpp,
    lib/geohash/int64.cpp, include/pyinterp/geohash/int64.hpp,
    lib/geohash/string.cpp (encode, decode, neighbors, bounding_boxes, transform),
    include/pyinterp/geodetic/box.hpp (constructor, centroid, delta, round).

    Words are [Z] with explicit truncation to 64 (or 32) bits.  Coordinates are
    rationals: the corners and centres of cells are dyadic numbers that binary64
    represents exactly; rounding only concerns user supplied points and is
    modelled apart in GeohashModelFloat.v.  *)
From Verif Require Import Base.
From Coq Require Import Ascii.
Open Scope Z_scope.

(* ------------------------------------------------------------------ *)
(** * Base32 (base32.hpp, base32.cpp) *)

(** base32.cpp:13-16, [Base32::encode_]. *)
Definition b32_alphabet : list ascii :=
  list_ascii_of_string "0123456789bcdefghjkmnpqrstuvwxyz".

(** base32.cpp:10, [kInvalid_ = numeric_limits<char>::max()]. *)
Definition b32_invalid : Z := 127.

(** base32.hpp:20-25: the constructor fills the table with [kInvalid_] and then
    stores the rank of each character of the alphabet. *)
Fixpoint b32_fill (chars : list ascii) (ix : Z) (tab : ascii -> Z) : ascii -> Z :=
  match chars with
  | [] => tab
  | c :: cs => b32_fill cs (ix + 1) (fun a => if Ascii.eqb a c then ix else tab a)
  end.
Definition b32_table : ascii -> Z := b32_fill b32_alphabet 0 (fun _ => b32_invalid).

(** base32.hpp:72-75. *)
Definition b32_validate_byte (c : ascii) : bool := negb (b32_table c =? b32_invalid).

(** base32.hpp:28-37: stops at the first NUL or at [count] (the length here). *)
Fixpoint b32_validate (buf : list ascii) : bool :=
  match buf with
  | [] => true
  | c :: t =>
      if Ascii.eqb c zero then true
      else if b32_validate_byte c then b32_validate t else false
  end.

Definition mask64 : Z := 18446744073709551615.
(** [x << k] on [uint64_t] for [k < 64]. *)
Definition shl64 (x k : Z) : Z := Z.land (Z.shiftl x k) mask64.

(** base32.hpp:41-55: value and number of characters read. *)
Fixpoint b32_decode_loop (buf : list ascii) (hash n : Z) : outcome (Z * Z) :=
  match buf with
  | [] => Ok (hash, n)
  | c :: t =>
      if Ascii.eqb c zero then Ok (hash, n)
      else if b32_validate_byte c then
             b32_decode_loop t (Z.lor (shl64 hash 5) (b32_table c)) (n + 1)
           else Throw "Invalid character in hash"
  end.
Definition b32_decode (buf : list ascii) : outcome (Z * Z) := b32_decode_loop buf 0 0.

(** base32.hpp:58-65: writes [count] characters from the end of the buffer; the
    accumulator is the part of the buffer already written. *)
Fixpoint b32_encode_loop (hash : Z) (count : nat) (acc : list ascii) : list ascii :=
  match count with
  | O => acc
  | S n =>
      b32_encode_loop (Z.shiftr hash 5) n
        (nth (Z.to_nat (Z.land hash 31)) b32_alphabet zero :: acc)
  end.
Definition b32_encode (hash : Z) (count : nat) : list ascii := b32_encode_loop hash count [].

(* ------------------------------------------------------------------ *)
(** * Bit codec (int64.cpp) *)

(** int64.cpp:40-48, one line of [spread]. *)
Definition spread_step (k mask r : Z) : Z := Z.land (Z.lor r (shl64 r k)) mask.
(** int64.cpp:40-48. *)
Definition spread (x : Z) : Z :=
  let r := x in
  let r := spread_step 16 0x0000FFFF0000FFFF r in
  let r := spread_step 8 0x00FF00FF00FF00FF r in
  let r := spread_step 4 0x0F0F0F0F0F0F0F0F r in
  let r := spread_step 2 0x3333333333333333 r in
  let r := spread_step 1 0x5555555555555555 r in
  r.

Definition squash_step (k mask r : Z) : Z := Z.land (Z.lor r (Z.shiftr r k)) mask.
(** int64.cpp:52-60. *)
Definition squash (x : Z) : Z :=
  let r := Z.land x 0x5555555555555555 in
  let r := squash_step 1 0x3333333333333333 r in
  let r := squash_step 2 0x0F0F0F0F0F0F0F0F r in
  let r := squash_step 4 0x00FF00FF00FF00FF r in
  let r := squash_step 8 0x0000FFFF0000FFFF r in
  let r := squash_step 16 0x00000000FFFFFFFF r in
  r.

(** int64.cpp:64-66. *)
Definition interleave (x y : Z) : Z := Z.lor (spread x) (shl64 (spread y) 1).

(** int64.cpp:70-72. *)
Definition deinterleave (x : Z) : Z * Z := (squash x, squash (Z.shiftr x 1)).

(** int64.cpp:118-135: the PDEP instruction (Intel SDM pseudo code): for each
    position [m] from 0, if [mask[m]] then [dest[m] := src[k]; k++]. *)
Fixpoint pdep_loop (n : nat) (m k src mask dest : Z) : Z :=
  match n with
  | O => dest
  | S n' =>
      if Z.testbit mask m then
        pdep_loop n' (m + 1) (k + 1) src mask
          (if Z.testbit src k then Z.setbit dest m else dest)
      else pdep_loop n' (m + 1) k src mask dest
  end.
Definition pdepq (src mask : Z) : Z := pdep_loop 64 0 0 src mask 0.

(** int64.cpp:139-156: the PEXT instruction. *)
Fixpoint pext_loop (n : nat) (m k src mask dest : Z) : Z :=
  match n with
  | O => dest
  | S n' =>
      if Z.testbit mask m then
        pext_loop n' (m + 1) (k + 1) src mask
          (if Z.testbit src m then Z.setbit dest k else dest)
      else pext_loop n' (m + 1) k src mask dest
  end.
Definition pextq (src mask : Z) : Z := pext_loop 64 0 0 src mask 0.

Definition u32 (x : Z) : Z := Z.land x 0xFFFFFFFF.

(** int64.cpp:172-179. *)
Definition deinterleave_bmi2 (x : Z) : Z * Z :=
  (u32 (pextq x 0x5555555555555555), u32 (pextq x 0xAAAAAAAAAAAAAAAA)).

(** Conversion of a real to an integer, towards zero. *)
Definition Qtrunc (x : Q) : Z := if Qle_bool 0 x then Qfloor x else - Qfloor (- x)%Q.

(** int64.cpp:75-81.  Converting a double whose integral part is not a [uint32_t]
    is undefined behaviour. *)
Definition encode_range (x r : Q) : outcome Z :=
  if Qle_bool r x then Ok 4294967295
  else
    let p := ((x + r) / (2 * r) * 4294967296)%Q in
    let v := Qtrunc p in
    if (0 <=? v) && (v <? 4294967296) then Ok v
    else UB "double to uint32_t out of range".

(** int64.cpp:84-90. *)
Definition decode_range (x : Z) (r : Q) : Q :=
  if x =? 4294967295 then r
  else (2 * r * (inject_Z x * (1 # 4294967296)) - r)%Q.

(** int64.cpp:93-95. *)
Definition encode_portable (lat lon : Q) : outcome Z :=
  olet x := encode_range lat 90 in
  olet y := encode_range lon 180 in
  Ok (interleave x y).

(** int64.cpp:98-113 [shrq]: the 64-bit pattern of the double [v], shifted right
    by 20, of which PDEP keeps the low 32 bits: the 32 upper bits of the
    mantissa.  [v] is positive here; its exponent [e] is the one for which
    [1 <= v / 2^e < 2].  Exact arithmetic (no rounding of [v]). *)
Definition mantissa32 (v : Q) : outcome Z :=
  if Qle_bool 1%Q v && Qltb v 2 then Ok (Qfloor ((v - 1) * 4294967296)%Q)
  else if Qle_bool 2 v && Qltb v 4 then Ok (Qfloor ((v / 2 - 1) * 4294967296)%Q)
  else if Qle_bool (1 # 2) v && Qltb v 1 then Ok (Qfloor ((v * 2 - 1) * 4294967296)%Q)
  else UB "shrq: not modelled outside [1/2, 4)".

(** int64.cpp:160-168, with the constants 0.0055... and 0.0027... read as 1/180
    and 1/360; [0X3FFFFFFFFFF] has its 32 low bits set. *)
Definition encode_bmi2 (lat lon : Q) : outcome Z :=
  olet y := (if Qeq_bool lat 90 then Ok 0x3FFFFFFFFFF else mantissa32 ((3 # 2) + lat * (1 # 180))%Q) in
  olet x := (if Qeq_bool lon 180 then Ok 0x3FFFFFFFFFF else mantissa32 ((3 # 2) + lon * (1 # 360))%Q) in
  Ok (Z.lor (shl64 (pdepq x 0x5555555555555555) 1) (pdepq y 0x5555555555555555)).

(** int64.cpp:190-194: the CPU decides once which pair of functions is used. *)
Definition encoder (bmi2 : bool) : Q -> Q -> outcome Z :=
  if bmi2 then encode_bmi2 else encode_portable.
Definition deinterleaver (bmi2 : bool) : Z -> Z * Z :=
  if bmi2 then deinterleave_bmi2 else deinterleave.

(* ------------------------------------------------------------------ *)
(** * Points and boxes (geodetic/point.hpp, geodetic/box.hpp) *)

Record point := Point { p_lon : Q; p_lat : Q }.
Arguments Point (p_lon p_lat)%Q_scope.
Record box := Box { min_corner : point; max_corner : point }.

(** box.hpp:40-50, constructor: only longitudes are checked. *)
Definition make_box (a b : point) : outcome box :=
  if Qltb 180 (p_lon a) || Qltb 180 (p_lon b)
     || Qltb (p_lon a) (-180) || Qltb (p_lon b) (-180)
  then Throw "longitude must be within [-180, 180["
  else if Qltb (p_lon b) (p_lon a) then Throw "min_corner.lon() > max_corner.lon()"
  else Ok (Box a b).

(** box.hpp:67-69, boost's centroid of a box. *)
Definition centroid (b : box) : point :=
  Point ((p_lon (min_corner b) + p_lon (max_corner b)) / 2)
        ((p_lat (min_corner b) + p_lat (max_corner b)) / 2).

(** box.hpp:72-81 with [round = false]. *)
Definition box_delta (b : box) : Q * Q :=
  ((p_lon (max_corner b) - p_lon (min_corner b))%Q,
   (p_lat (max_corner b) - p_lat (min_corner b))%Q).

(** box.hpp:161-164: [10 ^ floor (log10 x)], searched downwards from [10^m]; the
    fuel covers [10^m .. 10^(m-fuel)]. *)
Definition power10 (m : Z) : Q :=
  if 0 <=? m then inject_Z (10 ^ m) else (1 # Z.to_pos (10 ^ (- m))).
Fixpoint max_decimal_power_from (fuel : nat) (m : Z) (x : Q) : Q :=
  match fuel with
  | O => power10 m
  | S f => if Qle_bool (power10 m) x then power10 m else max_decimal_power_from f (m - 1) x
  end.
Definition max_decimal_power (x : Q) : Q := max_decimal_power_from 30 20 x.

(** box.hpp:85-91. *)
Definition box_round (b : box) : point :=
  let (dx, dy) := box_delta b in
  let x := max_decimal_power dx in
  let y := max_decimal_power dy in
  Point (inject_Z (Qceiling (p_lon (min_corner b) / x)) * x)
        (inject_Z (Qceiling (p_lat (min_corner b) / y)) * y).

(** box.hpp:173-175: boost's [equals] of two boxes (exact comparison; distinct
    cells differ by far more than boost's tolerance). *)
Definition point_eqb (a b : point) : bool :=
  Qeq_bool (p_lon a) (p_lon b) && Qeq_bool (p_lat a) (p_lat b).
Definition box_eqb (a b : box) : bool :=
  point_eqb (min_corner a) (min_corner b) && point_eqb (max_corner a) (max_corner b).

(* ------------------------------------------------------------------ *)
(** * Integer geohash (int64.hpp, int64.cpp) *)

(** [detail::math::power2 (-n)]. *)
Definition inv_power2 (n : Z) : Q := (1 # Z.to_pos (2 ^ n)).

(** int64.hpp:30-37: (longitude, latitude). *)
Definition error_with_precision (precision : Z) : Q * Q :=
  let lat_bits := Z.shiftr precision 1 in
  let lng_bits := precision - lat_bits in
  ((360 * inv_power2 lng_bits)%Q, (180 * inv_power2 lat_bits)%Q).

(** int64.cpp:245-252; a shift of 64 or more is undefined. *)
Definition gh_encode (bmi2 : bool) (pt : point) (precision : Z) : outcome Z :=
  olet result := encoder bmi2 (p_lat pt) (p_lon pt) in
  if precision =? 64 then Ok result
  else if (1 <=? precision) && (precision <? 64)
       then Ok (Z.shiftr result (64 - precision))
       else UB "shift count".

(** int64.cpp:255-267. *)
Definition bounding_box (bmi2 : bool) (hash precision : Z) : outcome box :=
  if (1 <=? precision) && (precision <=? 64) then
    let full_hash := shl64 hash (64 - precision) in
    let (ilat, ilon) := deinterleaver bmi2 full_hash in
    let lat := decode_range ilat 90 in
    let lon := decode_range ilon 180 in
    let (elon, elat) := error_with_precision precision in
    make_box (Point lon lat) (Point (lon + elon) (lat + elat))
  else UB "shift count".

(** int64.hpp:68-72. *)
Definition gh_decode (bmi2 : bool) (hash precision : Z) (round : bool) : outcome point :=
  olet bbox := bounding_box bmi2 hash precision in
  Ok (if round then box_round bbox else centroid bbox).

(** Run a list of computations in order. *)
Fixpoint oseq {A : Type} (l : list (outcome A)) : outcome (list A) :=
  match l with
  | [] => Ok []
  | m :: t => olet a := m in olet r := oseq t in Ok (a :: r)
  end.

(** int64.cpp:270-301. *)
Definition gh_neighbors (bmi2 : bool) (hash precision : Z) : outcome (list Z) :=
  olet b := bounding_box bmi2 hash precision in
  let c := centroid b in
  let (dx, dy) := box_delta b in
  let at_ (i j : Q) := gh_encode bmi2 (Point (p_lon c + i * dx) (p_lat c + j * dy)) precision in
  oseq [at_ 0 1; at_ 1 1; at_ 1 0; at_ 1 (-1); at_ 0 (-1); at_ (-1) (-1); at_ (-1) 0; at_ (-1) 1]%Q.

(** [std::round] of a double, then [static_cast<size_t>]. *)
Definition round_to_size (x : Q) : outcome Z :=
  let v := if Qle_bool 0 x then Qfloor (x + (1 # 2))%Q else - Qfloor (- x + (1 # 2))%Q in
  if 0 <=? v then Ok v else UB "negative double to size_t".

(** int64.cpp:304-331. *)
Definition grid_properties (bmi2 : bool) (b : box) (precision : Z) : outcome (Z * Z * Z) :=
  olet hash_sw := gh_encode bmi2 (min_corner b) precision in
  olet box_sw := bounding_box bmi2 hash_sw precision in
  olet hash_ne := gh_encode bmi2 (max_corner b) precision in
  olet box_ne := bounding_box bmi2 hash_ne precision in
  if box_eqb box_sw box_ne then Ok (hash_sw, 1, 1)
  else
    let lon_offset := if Qeq_bool (p_lon (max_corner b)) 180 then 1 else 0 in
    let lat_offset := if Qeq_bool (p_lat (max_corner b)) 90 then 1 else 0 in
    let (elon, elat) := error_with_precision precision in
    olet lon_step := round_to_size ((p_lon (min_corner box_ne) - p_lon (min_corner box_sw)) / elon)%Q in
    olet lat_step := round_to_size ((p_lat (min_corner box_ne) - p_lat (min_corner box_sw)) / elat)%Q in
    Ok (hash_sw, lon_step + lon_offset, lat_step + lat_offset).

Definition zrange (n : Z) : list Z := map Z.of_nat (seq 0 (Z.to_nat n)).

(** int64.cpp:334-357: row by row, longitude fastest. *)
Definition bounding_boxes (bmi2 : bool) (b : box) (precision : Z) : outcome (list Z) :=
  let (elon, elat) := error_with_precision precision in
  olet (hash_sw, lon_step, lat_step) := grid_properties bmi2 b precision in
  olet point_sw := gh_decode bmi2 hash_sw precision false in
  oseq (flat_map (fun lat =>
          map (fun lon =>
                 gh_encode bmi2 (Point (p_lon point_sw + inject_Z lon * elon)
                                       (p_lat point_sw + inject_Z lat * elat)) precision)
              (zrange lon_step))
          (zrange lat_step)).

(* ------------------------------------------------------------------ *)
(** * Textual geohash (string.cpp) *)

(** string.cpp:73-76. *)
Definition str_encode (bmi2 : bool) (pt : point) (precision : Z) : outcome (list ascii) :=
  olet h := gh_encode bmi2 pt (5 * precision) in
  Ok (b32_encode h (Z.to_nat precision)).

(** string.cpp:103-117. *)
Definition str_bounding_box (bmi2 : bool) (code : list ascii) : outcome box :=
  olet (h, chars) := b32_decode code in
  bounding_box bmi2 h (5 * chars).

(** string.cpp:120-124. *)
Definition str_decode (bmi2 : bool) (code : list ascii) (round : bool) : outcome point :=
  olet bbox := str_bounding_box bmi2 code in
  Ok (if round then box_round bbox else centroid bbox).

(** string.cpp:147-162. *)
Definition str_neighbors (bmi2 : bool) (code : list ascii) : outcome (list (list ascii)) :=
  olet (h, precision) := b32_decode code in
  olet l := gh_neighbors bmi2 h (precision * 5) in
  Ok (map (fun n => b32_encode n (Z.to_nat precision)) l).

(** string.cpp:190-222 (explicit box). *)
Definition str_bounding_boxes (bmi2 : bool) (b : box) (precision : Z) : outcome (list (list ascii)) :=
  olet l := bounding_boxes bmi2 b (precision * 5) in
  Ok (map (fun h => b32_encode h (Z.to_nat precision)) l).

(** string.cpp:398-424.  The result buffer is sized beforehand for [32^(to-from)]
    codes per cell (line 405: [2 << (5 d - 1)]); writing more is undefined. *)
Definition zoom_in_size (size from_precision to_precision : Z) : Z :=
  size * Z.shiftl 2 (5 * (to_precision - from_precision) - 1).
Definition zoom_in (bmi2 : bool) (codes : list (list ascii)) (from_precision to_precision : Z)
  : outcome (list (list ascii)) :=
  olet ll := oseq (map (fun c => olet b := str_bounding_box bmi2 c in
                                 bounding_boxes bmi2 b (to_precision * 5)) codes) in
  let out := map (fun h => b32_encode h (Z.to_nat to_precision)) (concat ll) in
  if zlen out <=? zoom_in_size (zlen codes) from_precision to_precision then
    Ok (out ++ repeat (repeat zero (Z.to_nat to_precision))
                 (Z.to_nat (zoom_in_size (zlen codes) from_precision to_precision - zlen out)))
  else UB "write past the result array".

(** [std::set<std::string>::emplace]: sorted, without duplicates. *)
Fixpoint code_cmp (a b : list ascii) : comparison :=
  match a, b with
  | [], [] => Eq
  | [], _ => Lt
  | _, [] => Gt
  | x :: a', y :: b' =>
      match N.compare (N_of_ascii x) (N_of_ascii y) with
      | Eq => code_cmp a' b'
      | c => c
      end
  end.
Fixpoint set_emplace (c : list ascii) (s : list (list ascii)) : list (list ascii) :=
  match s with
  | [] => [c]
  | h :: t =>
      match code_cmp c h with
      | Lt => c :: s
      | Eq => s
      | Gt => h :: set_emplace c t
      end
  end.

(** string.cpp:427-452. *)
Definition zoom_out (bmi2 : bool) (codes : list (list ascii)) (to_precision : Z)
  : outcome (list (list ascii)) :=
  olet l := oseq (map (fun c => olet p := str_decode bmi2 c false in
                                str_encode bmi2 p to_precision) codes) in
  Ok (fold_left (fun s c => set_emplace c s) l []).

(** string.cpp:455-471; every code has [input_precision] bytes. *)
Definition transform (bmi2 : bool) (codes : list (list ascii)) (input_precision precision : Z)
  : outcome (list (list ascii)) :=
  if input_precision =? precision then Ok codes
  else if precision <? input_precision then zoom_out bmi2 codes precision
  else zoom_in bmi2 codes input_precision precision.
