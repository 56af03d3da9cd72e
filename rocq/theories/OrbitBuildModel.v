(** Model of [calculate_orbit] (src/pyinterp/orbit.py:415-522).

    Latitudes, longitudes and distances are exact rationals without NaN; times are integers ([timedelta64[ns]]).
    Parameters: [normalize] ([normalize_longitudes] of one value, C118), [interp] ([interpolate], orbit.py:23-92, C131:
    the half size of the window, longitudes, latitudes, coordinates, coordinates wanted), [curvilinear]
    ([LineString.curvilinear_distance], in metres, C87). *)
From Verif Require Import Base MathModel OrbitModel.
From Coq Require Import Qround.
Open Scope Z_scope.

(** [numpy.interp(x, xp, fp)] at one point: clipped to the first and last values, linear between two coordinates.
    NumPy searches by bisection, here one by one: the same when [xp] is sorted. *)
Fixpoint np_segments (x x0 f0 : Q) (xs fs : list Q) : Q :=
  match xs, fs with
  | x1 :: xs, f1 :: fs =>
      if Qltb x x1 then (f0 + (f1 - f0) / (x1 - x0) * (x - x0))%Q else np_segments x x1 f1 xs fs
  | _, _ => f0
  end.
Definition np_interp (x : list Q) (xp fp : list Q) : outcome (list Q) :=
  match xp, fp with
  | x0 :: xs, f0 :: fs =>
      if negb (length xp =? length fp)%nat then Throw "ValueError: fp and xp are not of the same length"
      else Ok (map (fun v => if Qltb v x0 then f0 else np_segments v x0 f0 xs fs) x)
  | [], _ => Throw "ValueError: array of sample points is empty"
  | _, [] => Throw "ValueError: fp and xp are not of the same length"
  end.

(** [numpy.arange(start, stop, step)]. *)
Definition z_range (n : Z) : list Z := map Z.of_nat (seq 0 (Z.to_nat n)).
Definition q_arange (start stop step : Q) : list Q :=
  map (fun k => start + inject_Z k * step)%Q (z_range (Qceiling ((stop - start) / step))).
Definition z_arange (start stop step : Z) : list Z :=
  map (fun k => start + k * step) (z_range (- ((start - stop) / step))).

(** 500 ms in ns. *)
Definition half_second : Z := 500000000.

Section Build.
  Variable normalize : Q -> Q.
  Variable interp : nat -> list Q -> list Q -> list Q -> list Q -> outcome (list Q * list Q).
  Variable curvilinear : list Q -> list Q -> list Q.

  (** :463-476.  The mean of the steps is their sum over their number; without any step it is NaT, and the comparison
      is false. *)
  Definition resample (lon lat : list Q) (time : list Z) : outcome (list Q * list Q * list Z) :=
    let t0 := hd 0 time in
    let tn := last time 0 in
    if (2 <=? length time)%nat && (half_second <? (tn - t0) / (zlen time - 1)) then
      let time_hr := z_arange t0 tn half_second in
      olet (lon, lat) := interp 50%nat lon lat (map inject_Z time) (map inject_Z time_hr) in
      Ok (lon, lat, time_hr)
    else Ok (lon, lat, time).

  (** :478-483. *)
  Definition cut (cycle : option Z) (lon lat : list Q) (time : list Z) : list Q * list Q * list Z :=
    match cycle with
    | None => (lon, lat, time)
    | Some c =>
        let ix := where_ (map (fun t => t <? c) time) in
        (take 0%Q lon ix, take 0%Q lat ix, take 0 time ix)
    end.

  (** :447-483: what precedes the rearrangement. *)
  Definition prepare (lon lat : list Q) (time : list Z) (cycle : option Z) : outcome (list Q * list Q * list Z) :=
    olet _ := py_nth lat 0 in
    let lon' := trim_start 0%Q lat lon in
    let time' := trim_start 0 lat time in
    let lat' := trim_start 0%Q lat lat in
    olet (lon1, lat1, time1) := resample (map normalize lon') lat' time' in
    Ok (cut cycle lon1 lat1 time1).

  (** :485-491. *)
  Definition rearrange (lon lat : list Q) (time : list Z) : outcome (list Q * list Q * list Z) :=
    olet tn := py_nth time (-1) in
    olet t1 := py_nth time 1 in
    olet t0 := py_nth time 0 in
    rearrange_orbit (tn + t1 - t0) lon lat time.

  (** :493-522: [res] is [along_track_resolution]. *)
  Definition finish (lon lat : list Q) (time : list Z) (res : option Q) : outcome orbit :=
    let distance := map (fun d => d * (1 # 1000))%Q (curvilinear lon lat) in
    olet d0 := py_nth distance 0 in
    olet d2 := py_nth distance (-2) in
    let x_al := q_arange d0 d2 (num_or res 2) in
    olet (lon1, lat1) := interp 10%nat (removelast lon) (removelast lat) (removelast distance) x_al in
    olet t := np_interp x_al (removelast distance) (map inject_Z (removelast time)) in
    build_orbit lon1 lat1 (map py_int t) x_al.

  (** :415-522. *)
  Definition calculate_orbit (lon lat : list Q) (time : list Z) (cycle : option Z) (res : option Q) : outcome orbit :=
    olet (lon1, lat1, time1) := prepare lon lat time cycle in
    olet (lon2, lat2, time2) := rearrange lon1 lat1 time1 in
    finish lon2 lat2 time2 res.
End Build.
