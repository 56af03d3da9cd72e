(** Model of the serialization of streaming histograms:
    include/pyinterp/detail/math/streaming_histogram.hpp:96-131 (one histogram),
    include/pyinterp/streaming_histogram.hpp:330-370 (the array, pickling),
    include/pyinterp/detail/isviewstream.hpp (reading).

    Bytes are integers in [0, 256); floating point numbers are kept as their bit
    patterns of [tsz] bytes (8 for double, 4 for float). *)
From Verif Require Import Base.
Open Scope Z_scope.

Record raw_hist := RawHist {
  r_weighted : bool; r_bin_count : Z; r_count : Z; r_min : Z; r_max : Z; r_bins : list (Z * Z) }.

(** Memory image of an integer (little-endian machine), and back. *)
Fixpoint le_bytes (n : nat) (z : Z) : list Z :=
  match n with O => [] | S n' => z mod 256 :: le_bytes n' (z / 256) end.
Fixpoint le_value (l : list Z) : Z :=
  match l with [] => 0 | b :: t => b + 256 * le_value t end.

Section Size.
  Variable tsz : nat.

  (** :29-33, the struct [Bin] (two T without padding). *)
  Definition bin_bytes (b : Z * Z) : list Z := le_bytes tsz (fst b) ++ le_bytes tsz (snd b).

  (** :114-128. *)
  Definition dump (h : raw_hist) : list Z :=
    [if r_weighted h then 1 else 0] ++ le_bytes 8 (r_bin_count h) ++ le_bytes 8 (r_count h) ++
    le_bytes tsz (r_min h) ++ le_bytes tsz (r_max h) ++
    le_bytes 8 (zlen (r_bins h)) ++ concat (map bin_bytes (r_bins h)).

  (** [ss.read(p, k)] with exceptions on failbit: all [k] bytes or a failure, translated
      into [std::invalid_argument("invalid state")] (:110-112). *)
  Definition get (k : Z) (data : list Z) : outcome (list Z * list Z) :=
    if zlen data <? k then Throw "invalid state"
    else Ok (firstn (Z.to_nat k) data, skipn (Z.to_nat k) data).

  (** The bytes read into the vector of bins. *)
  Fixpoint decode_bins (n : nat) (data : list Z) : list (Z * Z) :=
    match n with
    | O => []
    | S n' => (le_value (firstn tsz data), le_value (firstn tsz (skipn tsz data)))
              :: decode_bins n' (skipn (tsz + tsz) data)
    end.

  (** :96-113.  [bins_.resize(size)] throws [std::length_error] when the vector would not
      be addressable; running out of memory is not modelled.  Bytes after the end are
      ignored. *)
  Definition load (data : list Z) : outcome raw_hist :=
    olet (w, data) := get 1 data in
    olet (bc, data) := get 8 data in
    olet (cn, data) := get 8 data in
    olet (mn, data) := get (Z.of_nat tsz) data in
    olet (mx, data) := get (Z.of_nat tsz) data in
    olet (sz, data) := get 8 data in
    let size := le_value sz in
    if 2 ^ 63 - 1 <? size * (2 * Z.of_nat tsz) then Throw "vector::_M_default_append"
    else
      olet (bs, _) := get (size * (2 * Z.of_nat tsz)) data in
      Ok (RawHist (negb (le_value w =? 0)) (le_value bc) (le_value cn) (le_value mn) (le_value mx)
                  (decode_bins (Z.to_nat size) bs)).

  (** streaming_histogram.hpp (wrapper) :330-347. *)
  Definition dump_array (l : list raw_hist) : list Z :=
    le_bytes 8 (zlen l) ++ concat (map (fun h => le_bytes 8 (zlen (dump h)) ++ dump h) l).

  (** isviewstream.hpp:62-71, [readview]: [count] is the [size_t] read, converted to the
      signed [std::streamsize]. *)
  Definition get_view (count : Z) (data : list Z) : outcome (list Z * list Z) :=
    if 2 ^ 63 <=? count then UB "string_view of negative size" else get count data.

  (** streaming_histogram.hpp (wrapper) :349-370. *)
  Fixpoint load_items (n : nat) (data : list Z) : outcome (list raw_hist) :=
    match n with
    | O => Ok []
    | S n' =>
        olet (sz, data) := get 8 data in
        olet (view, data) := get_view (le_value sz) data in
        olet h := load view in
        olet t := load_items n' data in
        Ok (h :: t)
    end.
  Definition load_array (data : list Z) : outcome (list raw_hist) :=
    olet (sz, data) := get 8 data in
    if 2 ^ 63 <=? le_value sz then UB "negative array size"
    else load_items (Z.to_nat (le_value sz)) data.
End Size.
