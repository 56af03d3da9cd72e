(** Model of the orbit tools (src/pyinterp/orbit.py).

    Latitudes and longitudes are exact rationals without NaN; times are integers (the
    [timedelta64[ns]] count).  A NumPy array is the list of its values; an [IndexError], a
    [ValueError] ... is [Throw].  The interpolation of the ephemeris
    ([interpolate], orbit.py:23-92) and the geodetic line strings are not modelled. *)
From Verif Require Import Base MathModel.
Open Scope Z_scope.

(** [numpy.roll(l, 1)]: the last element comes first. *)
Definition roll1 {A : Type} (l : list A) : list A :=
  match l with
  | [] => []
  | h :: _ => last l h :: removelast l
  end.

Fixpoint map2 {A B C : Type} (f : A -> B -> C) (l : list A) (m : list B) : list C :=
  match l, m with
  | a :: l', b :: m' => f a b :: map2 f l' m'
  | _, _ => []
  end.

(** [numpy.where(mask)[0]]. *)
Fixpoint where_from (i : nat) (mask : list bool) : list nat :=
  match mask with
  | [] => []
  | true :: t => i :: where_from (S i) t
  | false :: t => where_from (S i) t
  end.
Definition where_ (mask : list bool) : list nat := where_from 0 mask.

(** [dy = numpy.roll(lat, 1) - lat] (orbit.py:115, 146, 452). *)
Definition dy_of (lat : list Q) : list Q := map2 Qminus (roll1 lat) lat.

(** [(dy < 0) & (numpy.roll(dy, 1) >= 0)] and [(dy > 0) & (numpy.roll(dy, 1) <= 0)]
    (orbit.py:116, 147-149, 453-455). *)
Definition south_mask (dy : list Q) : list bool :=
  map2 (fun d p => Qltb d 0 && Qle_bool 0 p) dy (roll1 dy).
Definition north_mask (dy : list Q) : list bool :=
  map2 (fun d p => Qltb 0 d && Qle_bool p 0) dy (roll1 dy).

Definition south_turns (lat : list Q) : list nat := where_ (south_mask (dy_of lat)).
Definition turns (lat : list Q) : list nat :=
  where_ (map2 orb (south_mask (dy_of lat)) (north_mask (dy_of lat))).

(** [int(indexes.mean())]: the mean of non-negative integers, truncated. *)
Definition int_mean (l : list nat) : nat := (list_sum l / length l)%nat.

(** [l[shift:] + l[:shift]] (orbit.py:126-128). *)
Definition rotate {A : Type} (shift : nat) (l : list A) : list A :=
  skipn shift l ++ firstn shift l.

(** orbit.py:95-132, [_rearrange_orbit].  The modulo of [timedelta64] has the sign of the
    divisor, as [Z.modulo]; NumPy answers 0 for a null divisor. *)
Definition rearrange_orbit (cycle : Z) (lon lat : list Q) (time : list Z)
  : outcome (list Q * list Q * list Z) :=
  let indexes := south_turns lat in
  match indexes with
  | [] => Throw "IndexError"
  | first :: _ =>
      if (first <? int_mean indexes)%nat then Ok (lon, lat, time)
      else
        let shift := last indexes 0%nat in
        let time := rotate shift time in
        let t0 := hd 0 time in
        let time := map (fun t => (t - t0) mod cycle) time in
        if existsb (fun t => t <? 0) time then Throw "ValueError: Time is negative"
        else Ok (rotate shift lon, rotate shift lat, time)
  end.

(** [time[indexes]] for indexes inside the array. *)
Definition take {A : Type} (d : A) (l : list A) (indexes : list nat) : list A :=
  map (fun i => nth i l d) indexes.

(** orbit.py:135-152, [_calculate_pass_time]. *)
Definition calculate_pass_time (lat : list Q) (time : list Z) : outcome (list Z) :=
  match turns lat with
  | [] => Throw "IndexError"
  | _ :: t => Ok (take 0 time (0%nat :: t))
  end.

(** [numpy.sort] on times (insertion sort: any correct sort gives the same list). *)
Fixpoint insert_z (x : Z) (l : list Z) : list Z :=
  match l with
  | [] => [x]
  | h :: t => if x <=? h then x :: l else h :: insert_z x t
  end.
Definition sort_z (l : list Z) : list Z := fold_right insert_z [] l.

(** The fields of [Orbit] (orbit.py:155-181) used here. *)
Record orbit := mk_orbit {
  o_lon : list Q;
  o_lat : list Q;
  o_pass_time : list Z;
  o_time : list Z;
  o_x_al : list Q }.

(** The last step of [calculate_orbit] (orbit.py:514-522). *)
Definition build_orbit (lon lat : list Q) (time : list Z) (x_al : list Q) : outcome orbit :=
  olet pt := calculate_pass_time lat time in
  Ok (mk_orbit lon lat (sort_z pt) time x_al).

(** Python indexing [l[i]]: a negative index counts from the end. *)
Definition py_nth {A : Type} (l : list A) (i : Z) : outcome A :=
  let j := if i <? 0 then i + zlen l else i in
  if j <? 0 then Throw "IndexError"
  else match nth_error l (Z.to_nat j) with
       | Some v => Ok v
       | None => Throw "IndexError"
       end.

(** orbit.py:183-185, [cycle_duration]. *)
Definition cycle_duration (o : orbit) : outcome Z := py_nth (o_time o) (-1).

(** orbit.py:187-189, [passes_per_cycle]. *)
Definition passes_per_cycle (o : orbit) : Z := zlen (o_pass_time o).

(** orbit.py:191-196, [orbit_duration], in nanoseconds rounded down to the microsecond.  The
    division of two [timedelta64] is a division of doubles: by zero it gives [inf] (or NaN
    for 0/0), and [int(inf)] raises. *)
Definition orbit_duration (o : orbit) : outcome Z :=
  olet c := cycle_duration o in
  let us := c / 1000 in
  let d := passes_per_cycle o / 2 in
  if d =? 0 then Throw "OverflowError" else Ok (Z.quot us d * 1000).

(** orbit.py:205-220, [pass_duration]. *)
Definition pass_duration (o : orbit) (number : Z) : outcome Z :=
  let n := passes_per_cycle o in
  if (number <? 1) || (n <? number) then Throw "ValueError"
  else if number =? n then
    olet tl := py_nth (o_time o) (-1) in
    olet pl := py_nth (o_pass_time o) (-1) in
    olet t1 := py_nth (o_time o) 1 in
    olet t0 := py_nth (o_time o) 0 in
    Ok (tl - pl + t1 - t0)
  else
    olet b := py_nth (o_pass_time o) number in
    olet a := py_nth (o_pass_time o) (number - 1) in
    Ok (b - a).

(** orbit.py:222-233, [decode_absolute_pass_number].  [int(a / b)] truncates towards zero
    (the quotient of doubles is exact enough for |a| < 2^53). *)
Definition decode_pass (o : orbit) (number : Z) : outcome (Z * Z) :=
  let number := number - 1 in
  let n := passes_per_cycle o in
  if n =? 0 then Throw "ZeroDivisionError"
  else Ok (Z.quot number n + 1, number mod n + 1).

(** orbit.py:235-248, [encode_absolute_pass_number]. *)
Definition encode_pass (o : orbit) (cycle_number pass_number : Z) : outcome Z :=
  let n := passes_per_cycle o in
  if negb ((1 <=? pass_number) && (pass_number <=? n)) then Throw "ValueError"
  else Ok ((cycle_number - 1) * n + pass_number).

(** orbit.py:258-290, [iterate].  A generator: the values it yields, in order, and how it
    ends.  [Running] means that the number of turns given was used up. *)
Inductive ending := Finished | Raised (why : string) | Running.

Fixpoint iterate_loop (o : orbit) (turns : nat) (date last_date number : Z)
  : list (Z * Z * Z) * ending :=
  match turns with
  | O => ([], Running)
  | S turns =>
      if date <=? last_date then
        match decode_pass o number with
        | Ok (cyc, pass) =>
            match pass_duration o pass with
            | Ok d =>
                let (l, e) := iterate_loop o turns (date + d) last_date (number + 1) in
                ((cyc, pass, date) :: l, e)
            | Throw w | UB w => ([(cyc, pass, date)], Raised w)
            end
        | Throw w | UB w => ([], Raised w)
        end
      else ([], Finished)
  end.

(** [a or b] for an optional [datetime64]: the date 0 (1970-01-01) is falsy. *)
Definition date_or (a : option Z) (b : Z) : Z :=
  match a with
  | Some d => if d =? 0 then b else d
  | None => b
  end.

Definition iterate (o : orbit) (turns : nat) (now : Z) (first last : option Z) (number : Z)
  : list (Z * Z * Z) * ending :=
  let date := date_or first now in
  match cycle_duration o with
  | Ok c => iterate_loop o turns date (date_or last (date + c)) number
  | Throw w | UB w =>
      (* only evaluated when [last_date] is falsy *)
      match last with
      | Some d => if d =? 0 then ([], Raised w) else iterate_loop o turns date d number
      | None => ([], Raised w)
      end
  end.

(** orbit.py:541-547: the indexes of the points of a pass. *)
Definition pass_indexes (o : orbit) (pass_number : Z) : outcome (list nat) :=
  let index := pass_number - 1 in
  if index =? passes_per_cycle o - 1 then
    olet p := py_nth (o_pass_time o) (-1) in
    Ok (where_ (map (fun t => p <=? t) (o_time o)))
  else
    olet a := py_nth (o_pass_time o) index in
    olet b := py_nth (o_pass_time o) (index + 1) in
    Ok (where_ (map (fun t => (a <=? t) && (t <? b)) (o_time o))).

(** The fields of [Pass] (orbit.py:307-319) other than the equator. *)
Record pass := mk_pass {
  p_lon : list Q;
  p_lat : list Q;
  p_time : list Z;
  p_x_al : list Q }.

(** [l[mask]]. *)
Fixpoint select {A : Type} (mask : list bool) (l : list A) : list A :=
  match mask, l with
  | true :: m, a :: t => a :: select m t
  | false :: m, _ :: t => select m t
  | _, _ => []
  end.

(** orbit.py:525-570, [calculate_pass]; [None] is [None].  [bbox] is the answer of
    [covered_by] on a point (C89), [equator] the call of [_equator_properties], of which
    only the exceptions matter here. *)
Definition calculate_pass (equator : list Q -> list Q -> list Z -> outcome unit)
    (pass_number : Z) (o : orbit) (bbox : option (Q * Q -> bool)) : outcome (option pass) :=
  olet indexes := pass_indexes o pass_number in
  if (length indexes <? 5)%nat then Ok None
  else
    let lon := take 0%Q (o_lon o) indexes in
    let lat := take 0%Q (o_lat o) indexes in
    let time := take 0 (o_time o) indexes in
    let x_al := take 0%Q (o_x_al o) indexes in
    match bbox with
    | None => olet _ := equator lon lat time in Ok (Some (mk_pass lon lat time x_al))
    | Some inside =>
        let mask := map inside (combine lon lat) in
        if forallb negb mask then Ok None
        else
          olet _ := equator (select mask lon) (select mask lat) (select mask time) in
          Ok (Some (mk_pass (select mask lon) (select mask lat) (select mask time)
                            (select mask x_al)))
    end.

(** [numpy.abs(lat).argmin()]: the first of the smallest. *)
Fixpoint argmin_from (l : list Q) (i best : nat) (v : Q) : nat :=
  match l with
  | [] => best
  | h :: t => if Qltb h v then argmin_from t (S i) i h else argmin_from t (S i) best v
  end.
Definition argmin (l : list Q) : nat :=
  match l with
  | [] => 0%nat
  | h :: t => argmin_from t 1 0 h
  end.

(** orbit.py:385-388: the pair of points [(i0, i1)] retained around the equator. *)
Definition equator_pair (lat : list Q) : nat * nat :=
  let i1 := argmin (map Qabs lat) in
  let i0 := if (0 <? i1)%nat then (i1 - 1)%nat else 1%nat in
  if Qltb 0 (nth i0 lat 0 * nth i1 lat 0)%Q then
    if (i1 <? length lat - 1)%nat then (i1, S i1) else ((i1 - 1)%nat, i1)
  else (i0, i1).

(** [l[i0:i1 + 1]]. *)
Definition slice {A : Type} (i0 i1 : nat) (l : list A) : list A :=
  firstn (S i1 - i0) (skipn i0 l).

(** orbit.py:378-397, [_equator_properties] up to the intersection: [None] when fewer than
    two points are given, otherwise the two points given to the intersection.
    [lon1[0]], [lon1[1]] are read whatever the intersection (orbit.py:397). *)
Definition equator_segment (lon lat : list Q) : outcome (option (list (Q * Q))) :=
  if (length lon <? 2)%nat then Ok None
  else
    let (i0, i1) := equator_pair lat in
    let lon1 := slice i0 i1 lon in
    let lat1 := slice i0 i1 lat in
    olet _ := py_nth lon1 0 in
    olet _ := py_nth lon1 1 in
    Ok (Some (combine lon1 lat1)).

(** orbit.py:449-458: the trimming of an ephemeris that starts near the equator. *)
Definition trim_start {A : Type} (d : A) (lat : list Q) (l : list A) : list A :=
  match lat with
  | y0 :: _ =>
      if Qle_bool (-(40)) y0 && Qle_bool y0 40 then take d l (tl (turns lat)) else l
  | [] => l
  end.

(** [x or default] for an optional number: zero is falsy. *)
Definition num_or (x : option Q) (default : Q) : Q :=
  match x with
  | Some v => if Qeq_bool v 0 then default else v
  | None => default
  end.

(** Python [int(x)]: truncation towards zero. *)
Definition py_int (x : Q) : Z := Z.quot (Qnum x) (Z.pos (Qden x)).

(** orbit.py:601-612, [calculate_swath]: the number of pixels of a half swath and the row of
    the across track distances (in metres). *)
Definition half_swath_size (ac_res half_swath half_gap : option Q) : Z :=
  let ac := num_or ac_res 2 in
  let hs := num_or half_swath 70 in
  let hg := num_or half_gap 2 in
  py_int ((hs - hg) / ac) + 1.

Definition swath_x_ac (ac_res al_res half_swath half_gap : option Q) : list Q :=
  let al := num_or al_res 2 in
  let hg := num_or half_gap 2 in
  let n := half_swath_size ac_res half_swath half_gap in
  let x := map (fun i => inject_Z (Z.of_nat i) * al + hg)%Q (seq 0 (Z.to_nat n)) in
  map (fun v => v * 1000)%Q (map Qopp (rev x) ++ x).

(** orbit.py:614-621: the ground distances (in metres) at which the core is asked to put the
    pixels: pixel [j] of a side is at [j * delta_ac + half_gap] (swath.hpp:62-63). *)
Definition swath_ground (ac_res half_swath half_gap : option Q) : list Q :=
  let ac := num_or ac_res 2 in
  let hg := num_or half_gap 2 in
  let n := half_swath_size ac_res half_swath half_gap in
  let x := map (fun i => inject_Z (Z.of_nat i) * (ac * 1000) + hg * 1000)%Q
               (seq 0 (Z.to_nat n)) in
  map Qopp (rev x) ++ x.

(** orbit.py:336-352, [Swath.mask]: [Some 1] or NaN ([None]). *)
Definition swath_mask (lo hi : Q) (x_ac : list (list Q)) : list (list (option Q)) :=
  map (map (fun x =>
    if Qle_bool lo (Qabs x) && Qle_bool (Qabs x) hi then Some 1%Q else None)) x_ac.

(** orbit.py:354-375, [insert_central_pixel] on one matrix; [fill] is the central column. *)
Definition insert_row {A : Type} (c : nat) (row : list A) (v : A) : list A :=
  firstn c row ++ v :: skipn c row.
Definition insert_central {A : Type} (array : list (list A)) (fill : list A)
  : list (list A) :=
  match array with
  | [] => []
  | r :: _ => map2 (insert_row (S (length r) / 2)) array fill
  end.
