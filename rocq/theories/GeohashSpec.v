(** Specification of the geohash grid, written without any reference to the
    model of the code: the textbook definition of a geohash as a sequence of
    bisections of the Earth. *)
From Verif Require Import Base.
From Coq Require Import Ascii.
Open Scope Z_scope.

(** A cell: longitudes [west, east], latitudes [south, north]. *)
Record cell := Cell { west : Q; east : Q; south : Q; north : Q }.
Arguments Cell (west east south north)%Q_scope.

Definition earth : cell := Cell (-180) 180 (-90) 90.

(** Halves of a cell: [upper = true] is the eastern or northern half. *)
Definition split_lon (c : cell) (upper : bool) : cell :=
  let m := ((west c + east c) / 2)%Q in
  if upper then Cell m (east c) (south c) (north c)
  else Cell (west c) m (south c) (north c).
Definition split_lat (c : cell) (upper : bool) : cell :=
  let m := ((south c + north c) / 2)%Q in
  if upper then Cell (west c) (east c) m (north c)
  else Cell (west c) (east c) (south c) m.

(** The cell of a [p]-bit code: the cell of the code without its last bit, cut in
    two, the last bit choosing the half.  Bits number 1, 3, 5... (from the most
    significant) cut the longitudes, the others the latitudes. *)
Fixpoint cell_of (p : nat) (h : Z) : cell :=
  match p with
  | O => earth
  | S n =>
      let parent := cell_of n (h / 2) in
      if Nat.even n then split_lon parent (Z.odd h) else split_lat parent (Z.odd h)
  end.

(** Membership: closed, and half-open (the cells of a level then partition the
    Earth deprived of its last meridian and parallel). *)
Definition in_closed (c : cell) (lon lat : Q) : Prop :=
  (west c <= lon /\ lon <= east c /\ south c <= lat /\ lat <= north c)%Q.
Definition in_half_open (c : cell) (lon lat : Q) : Prop :=
  (west c <= lon /\ lon < east c /\ south c <= lat /\ lat < north c)%Q.

Definition sub_cell (a b : cell) : Prop :=
  (west b <= west a /\ east a <= east b /\ south b <= south a /\ north a <= north b)%Q.

Definition same_cell (c d : cell) : Prop :=
  (west c == west d /\ east c == east d /\ south c == south d /\ north c == north d)%Q.

(** A code of [p] bits. *)
Definition is_code (p h : Z) : Prop := 0 <= h < 2 ^ p.

(** Position of the cell [d] relative to [c]: shifted by [i] cell widths to the east
    and [j] cell heights to the north. *)
Definition shifted (c d : cell) (i j : Z) : Prop :=
  (west d == west c + inject_Z i * (east c - west c) /\
   east d == east c + inject_Z i * (east c - west c) /\
   south d == south c + inject_Z j * (north c - south c) /\
   north d == north c + inject_Z j * (north c - south c))%Q.

(** The same, longitudes being taken modulo 360 degrees. *)
Definition shifted_wrap (c d : cell) (i j : Z) : Prop :=
  exists k : Z,
  (west d == west c + inject_Z i * (east c - west c) + 360 * inject_Z k /\
   east d == east c + inject_Z i * (east c - west c) + 360 * inject_Z k /\
   south d == south c + inject_Z j * (north c - south c) /\
   north d == north c + inject_Z j * (north c - south c))%Q.

(** The eight directions in the documented order: clockwise from north. *)
Definition compass : list (Z * Z) :=
  [(0, 1); (1, 1); (1, 0); (1, -1); (0, -1); (-1, -1); (-1, 0); (-1, 1)].

(** Base 32 reading of a text: most significant digit first, digits ranked by the
    geohash alphabet "0-9, b-z without a, i, l, o". *)
Definition digits : string := "0123456789bcdefghjkmnpqrstuvwxyz".
Definition is_digit (c : ascii) (d : Z) : Prop :=
  0 <= d < 32 /\ String.get (Z.to_nat d) digits = Some c.
Fixpoint reads_as (text : list ascii) (acc v : Z) : Prop :=
  match text with
  | [] => v = acc
  | c :: t => exists d, is_digit c d /\ reads_as t (32 * acc + d) v
  end.

(** Cells ordered row by row from the south, each row from west to east. *)
Definition before_in_rows (c d : cell) : Prop :=
  (south c < south d)%Q \/ ((south c == south d)%Q /\ (west c < west d)%Q).

(** A box of the Earth. *)
Definition box_on_earth (w e s n : Q) : Prop :=
  (-180 <= w /\ w <= e /\ e <= 180 /\ -90 <= s /\ s <= n /\ n <= 90)%Q.
