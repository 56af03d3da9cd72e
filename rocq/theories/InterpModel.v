(** Model of the one-dimensional interpolators
    (include/pyinterp/detail/interpolation/*.hpp), statement by statement.

    Simplifications: exact rationals instead of [double]/[float]; NaN results are [None].
    Every read of a buffer is checked: outside the buffer, or never written since its last
    [resize], it is undefined behaviour; so is a division by zero (which yields infinities
    or NaN in C++). *)
From Verif Require Import Base.
Open Scope nat_scope.

(** Inputs ([Vector<T>]): checked access. *)
Definition oat (l : list Q) (i : nat) : outcome Q :=
  match nth_error l i with Some v => Ok v | None => UB "vector index" end.
(** [a / b]. *)
Definition odiv (a b : Q) : outcome Q :=
  if Qeq_bool b 0 then UB "division by zero" else Ok (a / b)%Q.

(** Member buffers ([Vector<T>] members reused from one call to the next): a size and the
    cells written so far. *)
Record buf := Buf { bsize : nat; bget : nat -> option Q }.
Definition bempty : buf := Buf 0 (fun _ => None).
(** [v.resize(n)]: the content is lost. *)
Definition bresize (n : nat) : buf := Buf n (fun _ => None).
(** [v.setZero()]. *)
Definition bzero (b : buf) : buf := Buf (bsize b) (fun _ => Some 0%Q).
Definition bread (b : buf) (i : nat) : outcome Q :=
  if i <? bsize b then match bget b i with Some v => Ok v | None => UB "uninitialised cell" end
  else UB "buffer index".
Definition bwrite (b : buf) (i : nat) (v : Q) : outcome buf :=
  if i <? bsize b then Ok (Buf (bsize b) (fun k => if k =? i then Some v else bget b k))
  else UB "buffer index".

(** Square matrices ([Matrix<T> A_]). *)
Record mat := Mat { msize : nat; mget : nat -> nat -> option Q }.
Definition mempty : mat := Mat 0 (fun _ _ => None).
Definition mzero (n : nat) : mat := Mat n (fun _ _ => Some 0%Q).
Definition mread (a : mat) (i j : nat) : outcome Q :=
  if (i <? msize a) && (j <? msize a)
  then match mget a i j with Some v => Ok v | None => UB "uninitialised cell" end
  else UB "matrix index".
Definition mwrite (a : mat) (i j : nat) (v : Q) : outcome mat :=
  if (i <? msize a) && (j <? msize a)
  then Ok (Mat (msize a) (fun k l => if (k =? i) && (l =? j) then Some v else mget a k l))
  else UB "matrix index".

(** [for (i = from; i < from + n; ++i) s = f(i, s)] and the same loop downwards
    [for (i = from + n - 1; i >= from; --i)]. *)
Fixpoint ofor {S : Type} (from n : nat) (f : nat -> S -> outcome S) (s : S) : outcome S :=
  match n with
  | O => Ok s
  | S n' => olet s' := f from s in ofor (Datatypes.S from) n' f s'
  end.
Fixpoint odown {S : Type} (n : nat) (f : nat -> S -> outcome S) (s : S) : outcome S :=
  match n with
  | O => Ok s
  | S n' => olet s' := f n' s in odown n' f s'
  end.

(** std::lower_bound (libstdc++): binary search. [fuel] bounds the number of halvings and
    never runs out when it is at least [len]. *)
Fixpoint lower_bound_from (fuel : nat) (xa : list Q) (x : Q) (first len : nat) : outcome nat :=
  match fuel with
  | O => Ok first
  | S fuel' =>
      if len =? 0 then Ok first
      else
        let half := len / 2 in
        let middle := first + half in
        olet v := oat xa middle in
        if Qltb v x then lower_bound_from fuel' xa x (S middle) (len - half - 1)
        else lower_bound_from fuel' xa x first half
  end.
(** interpolator.hpp:32-50: [Interpolator::search]. *)
Definition search (xa : list Q) (x : Q) : outcome (option (nat * nat)) :=
  let n := length xa in
  olet it := lower_bound_from (S n) xa x 0 n in
  if it =? n then Ok None
  else if it =? 0 then
    olet v := oat xa 0 in
    if Qeq_bool v x then Ok (Some (0, 1)) else Ok None
  else
    olet a := oat xa (it - 1) in
    olet b := oat xa it in
    if Qltb a x && Qle_bool x b then Ok (Some (it - 1, it)) else Ok None.

(** interpolator_1d.hpp:78-88: [Interpolator1D::compute_coefficients]. *)
Definition check_sizes (min_size : nat) (xa ya : list Q) : outcome unit :=
  if negb (length xa =? length ya) then Throw "xa and ya must have the same size"
  else if length xa <? min_size then Throw "xa and ya must have at least min_size elements"
  else Ok tt.

(** * Linear (linear.hpp) *)
Definition linear_min_size : nat := 2.
(** linear.hpp:29-37 *)
Definition linear_interp (xa ya : list Q) (x : Q) : outcome (option Q) :=
  olet w := search xa x in
  match w with
  | None => Ok None
  | Some (i0, i1) =>
      olet x0 := oat xa i0 in olet x1 := oat xa i1 in
      olet y0 := oat ya i0 in olet y1 := oat ya i1 in
      olet s := odiv (y1 - y0) (x1 - x0) in
      Ok (Some (y0 + s * (x - x0))%Q)
  end.
(** linear.hpp:45-53 *)
Definition linear_deriv (xa ya : list Q) (x : Q) : outcome (option Q) :=
  olet w := search xa x in
  match w with
  | None => Ok None
  | Some (i0, i1) =>
      olet x0 := oat xa i0 in olet x1 := oat xa i1 in
      olet y0 := oat ya i0 in olet y1 := oat ya i1 in
      olet s := odiv (y1 - y0) (x1 - x0) in
      Ok (Some s)
  end.
(** [operator()] (interpolator_1d.hpp:24-27) and [derivative] (50-53). *)
Definition linear (xa ya : list Q) (x : Q) : outcome (option Q) :=
  olet _ := check_sizes linear_min_size xa ya in linear_interp xa ya x.
Definition linear_derivative (xa ya : list Q) (x : Q) : outcome (option Q) :=
  olet _ := check_sizes linear_min_size xa ya in linear_deriv xa ya x.

(** * Steffen (steffen.hpp) *)
Definition steffen_min_size : nat := 3.
(** steffen.hpp:47-49: [copysign]. *)
Definition steffen_copysign (x y : Q) : Q :=
  if (Qltb x 0 && Qltb 0 y) || (Qltb 0 x && Qltb y 0) then (- x)%Q else x.
(** steffen.hpp:71-87: one turn of the loop. *)
Definition steffen_step (xa ya : list Q) (i : nat) (yp : buf) : outcome buf :=
  olet xp := oat xa (i + 1) in olet xi := oat xa i in olet xm := oat xa (i - 1) in
  olet yp1 := oat ya (i + 1) in olet yi := oat ya i in olet ym := oat ya (i - 1) in
  let hi := (xp - xi)%Q in
  let him1 := (xi - xm)%Q in
  olet si := odiv (yp1 - yi) hi in
  olet sim1 := odiv (yi - ym) him1 in
  olet p := odiv (sim1 * hi + si * him1) (him1 + hi) in
  bwrite yp i ((steffen_copysign 1 sim1 + steffen_copysign 1 si) *
               Qmin (Qabs sim1) (Qmin (Qabs si) ((1 # 2) * Qabs p)))%Q.
(** steffen.hpp:55-94: [compute_coefficients]; [yp] is the member [y_prime_]. *)
Definition steffen_compute (yp : buf) (xa ya : list Q) : outcome buf :=
  olet _ := check_sizes steffen_min_size xa ya in
  let size := length xa in
  let yp := if bsize yp <? size then bresize size else yp in
  olet x1 := oat xa 1 in olet x0 := oat xa 0 in
  olet y1 := oat ya 1 in olet y0 := oat ya 0 in
  olet s0 := odiv (y1 - y0) (x1 - x0) in
  olet yp := bwrite yp 0 s0 in
  olet yp := ofor 1 (size - 2) (steffen_step xa ya) yp in
  olet xn := oat xa (size - 1) in olet xm := oat xa (size - 2) in
  olet yn := oat ya (size - 1) in olet ym := oat ya (size - 2) in
  olet s := odiv (yn - ym) (xn - xm) in
  bwrite yp (size - 1) s.
(** steffen.hpp:107-114: slopes and coefficients of the cell. *)
Definition steffen_cell (yp : buf) (xa ya : list Q) (i0 i1 : nat) : outcome (Q * Q * Q * Q * Q) :=
  olet x0 := oat xa i0 in olet x1 := oat xa i1 in
  olet y0 := oat ya i0 in olet y1 := oat ya i1 in
  let hi := (x1 - x0)%Q in
  olet si := odiv (y1 - y0) hi in
  olet p0 := bread yp i0 in olet p1 := bread yp i1 in
  olet a := odiv (p0 + p1 - 2 * si) hi in
  olet a := odiv a hi in
  olet b := odiv (3 * si - 2 * p0 - p1) hi in
  Ok (x0, a, b, p0, y0).
(** steffen.hpp:97-116 *)
Definition steffen_interp (yp : buf) (xa ya : list Q) (x : Q) : outcome (option Q) :=
  olet w := search xa x in
  match w with
  | None => Ok None
  | Some (i0, i1) =>
      olet (x0, a, b, c, d) := steffen_cell yp xa ya i0 i1 in
      let h := (x - x0)%Q in
      Ok (Some (d + h * (c + h * (b + h * a)))%Q)
  end.
(** steffen.hpp:119-134 *)
Definition steffen_deriv (yp : buf) (xa ya : list Q) (x : Q) : outcome (option Q) :=
  olet w := search xa x in
  match w with
  | None => Ok None
  | Some (i0, i1) =>
      olet (x0, a, b, c, d) := steffen_cell yp xa ya i0 i1 in
      let h := (x - x0)%Q in
      Ok (Some (c + h * (2 * b + h * 3 * a))%Q)
  end.
Definition steffen (st : buf) (xa ya : list Q) (x : Q) : outcome (buf * option Q) :=
  olet st := steffen_compute st xa ya in olet r := steffen_interp st xa ya x in Ok (st, r).
Definition steffen_derivative (st : buf) (xa ya : list Q) (x : Q) : outcome (buf * option Q) :=
  olet st := steffen_compute st xa ya in olet r := steffen_deriv st xa ya x in Ok (st, r).

(** * Akima (akima.hpp, akima_periodic.hpp) *)
Definition akima_min_size : nat := 5.
(** Members [m_] and [s_]. The pointer [m] is [m_.data() + 2]: [m[i]] is cell [i + 2]. *)
Record akima_state := Akima { am : buf; as_ : buf }.
Definition akima_init : akima_state := Akima bempty bempty.
(** akima.hpp:26-31 *)
Definition akima_boundary (m : buf) (size : nat) : outcome buf :=
  olet m0 := bread m 2 in olet m1 := bread m 3 in
  olet m := bwrite m 0 (3 * m0 - 2 * m1)%Q in
  olet m := bwrite m 1 (2 * m0 - m1)%Q in
  olet n2 := bread m size in olet n3 := bread m (size - 1) in
  olet m := bwrite m (size + 1) (2 * n2 - n3)%Q in
  bwrite m (size + 2) (3 * n2 - 2 * n3)%Q.
(** akima_periodic.hpp:18-23 *)
Definition akima_boundary_periodic (m : buf) (size : nat) : outcome buf :=
  olet n3 := bread m (size - 1) in olet m := bwrite m 0 n3 in
  olet n2 := bread m size in olet m := bwrite m 1 n2 in
  olet m0 := bread m 2 in olet m := bwrite m (size + 1) m0 in
  olet m1 := bread m 3 in bwrite m (size + 2) m1.
(** akima.hpp:68-70 *)
Definition akima_slope (xa ya : list Q) (ix : nat) (m : buf) : outcome buf :=
  olet y1 := oat ya (ix + 1) in olet y0 := oat ya ix in
  olet x1 := oat xa (ix + 1) in olet x0 := oat xa ix in
  olet v := odiv (y1 - y0) (x1 - x0) in
  bwrite m (ix + 2) v.
(** akima.hpp:75-86 *)
Definition akima_spline (m : buf) (ix : nat) (s : buf) : outcome buf :=
  olet mp1 := bread m (ix + 3) in olet mi := bread m (ix + 2) in
  olet mm1 := bread m (ix + 1) in olet mm2 := bread m ix in
  let denominator := (Qabs (mp1 - mi) + Qabs (mm1 - mm2))%Q in
  if negb (Qeq_bool denominator 0) then
    olet v := odiv (Qabs (mp1 - mi) * mm1 + Qabs (mm1 - mm2) * mi) denominator in
    bwrite s ix v
  else bwrite s ix ((mm1 + mi) * (1 # 2))%Q.
(** akima.hpp:55-91: [compute_coefficients]. *)
Definition akima_compute (periodic : bool) (st : akima_state) (xa ya : list Q) : outcome akima_state :=
  olet _ := check_sizes akima_min_size xa ya in
  let size := length xa in
  let st := if bsize (am st) <? size + 4 then Akima (bresize (size + 4)) (bresize size) else st in
  olet m := ofor 0 (size - 1) (akima_slope xa ya) (am st) in
  olet m := if periodic then akima_boundary_periodic m size else akima_boundary m size in
  olet s := ofor 2 (size - 4) (akima_spline m) (as_ st) in
  olet m0 := bread m 2 in
  olet s := bwrite s 0 m0 in
  olet m2 := bread m 4 in
  olet s := bwrite s 1 ((m0 + m2) * (1 # 2))%Q in
  olet a := bread m (size - 1) in olet b := bread m (size + 1) in
  olet s := bwrite s (size - 2) ((a + b) * (1 # 2))%Q in
  olet s := bwrite s (size - 1) b in
  Ok (Akima m s).
(** akima.hpp:101-107: coefficients of the cell, read from [m_[i0]], not [m[i0]]. *)
Definition akima_cell (st : akima_state) (xa ya : list Q) (i0 i1 : nat) : outcome (Q * Q * Q * Q * Q) :=
  olet x1 := oat xa i1 in olet x0 := oat xa i0 in
  let dx := (x1 - x0)%Q in
  olet ai := oat ya i0 in
  olet bi := bread (as_ st) i0 in
  olet s1 := bread (as_ st) i1 in
  olet mi := bread (am st) i0 in
  olet ci := odiv (3 * mi - 2 * bi - s1) dx in
  olet di := odiv (bi + s1 - 2 * mi) (dx * dx) in
  Ok (x0, ai, bi, ci, di).
(** akima.hpp:94-109; outside the data a [double] is thrown. *)
Definition akima_interp (st : akima_state) (xa ya : list Q) (x : Q) : outcome (option Q) :=
  olet w := search xa x in
  match w with
  | None => Throw "NaN"
  | Some (i0, i1) =>
      olet (x0, a, b, c, d) := akima_cell st xa ya i0 i1 in
      let h := (x - x0)%Q in
      Ok (Some (a + h * (b + h * (c + h * d)))%Q)
  end.
(** akima.hpp:112-126 *)
Definition akima_deriv (st : akima_state) (xa ya : list Q) (x : Q) : outcome (option Q) :=
  olet w := search xa x in
  match w with
  | None => Throw "NaN"
  | Some (i0, i1) =>
      olet (x0, a, b, c, d) := akima_cell st xa ya i0 i1 in
      let h := (x - x0)%Q in
      Ok (Some (b + h * (2 * c + h * 3 * d))%Q)
  end.
Definition akima (periodic : bool) (st : akima_state) (xa ya : list Q) (x : Q) : outcome (akima_state * option Q) :=
  olet st := akima_compute periodic st xa ya in olet r := akima_interp st xa ya x in Ok (st, r).
Definition akima_derivative (periodic : bool) (st : akima_state) (xa ya : list Q) (x : Q) : outcome (akima_state * option Q) :=
  olet st := akima_compute periodic st xa ya in olet r := akima_deriv st xa ya x in Ok (st, r).

(** * Polynomial (polynomial.hpp) *)
Definition polynomial_min_size : nat := 3.
(** polynomial.hpp:66-71: first differences. *)
Definition poly_first (xa ya : list Q) (k : nat) (w : buf) : outcome buf :=
  olet y1 := oat ya k in olet y0 := oat ya (k - 1) in
  olet x1 := oat xa k in olet x0 := oat xa (k - 1) in
  olet v := odiv (y1 - y0) (x1 - x0) in bwrite w k v.
(** polynomial.hpp:72-77: [work_.segment(ix, n) = (work_.segment(ix, n) - work_.segment(ix - 1, n)) / ...]
    is evaluated without a temporary: the cells are processed by consecutive packets, each
    packet being read before it is written (the packets depend on the instruction set and on
    the alignment). [poly_packet] is one packet; [poly_segment] the packets of [plan]. *)
Definition poly_packet (xa : list Q) (old : buf) (k : nat) (w : buf) : outcome buf :=
  olet w1 := bread old k in olet w0 := bread old (k - 1) in
  olet x1 := oat xa k in olet x0 := oat xa (k - 1) in
  olet v := odiv (w1 - w0) (x1 - x0) in bwrite w k v.
Fixpoint poly_segment (xa : list Q) (plan : list nat) (k : nat) (w : buf) : outcome buf :=
  match plan with
  | [] => Ok w
  | len :: t => olet w' := ofor k len (poly_packet xa w) w in poly_segment xa t (k + len) w'
  end.
(** polynomial.hpp:55-78; [packets ix n]: how a segment of [n] cells from [ix] is cut. *)
Definition poly_compute (packets : nat -> nat -> list nat) (w : buf) (xa ya : list Q) : outcome buf :=
  olet _ := check_sizes polynomial_min_size xa ya in
  let size := length xa in
  let w := if bsize w <? size then bresize size else w in
  olet y0 := oat ya 0 in
  olet w := bwrite w 0 y0 in
  olet w := ofor 1 (size - 1) (poly_first xa ya) w in
  ofor 2 (size - 2) (fun ix w => poly_segment xa (packets ix (size - ix)) ix w) w.
(** polynomial.hpp:100-114 *)
Definition poly_interp (w : buf) (xa ya : list Q) (x : Q) : outcome (option Q) :=
  olet s := search xa x in
  match s with
  | None => Throw "NaN"
  | Some _ =>
      let size := length xa in
      olet y := bread w (size - 1) in
      olet y := odown (size - 1) (fun ix y =>
        olet wi := bread w ix in olet xi := oat xa ix in Ok (wi + (x - xi) * y)%Q) y in
      Ok (Some y)
  end.
(** polynomial.hpp:81-97: [taylor]; [c] and [w] are fresh, uninitialised vectors. *)
Definition poly_taylor (work : buf) (xa : list Q) (x : Q) : outcome buf :=
  let size := length xa in
  olet w := bwrite (bresize size) (size - 1) 1%Q in
  olet w0 := bread work 0 in
  olet c := bwrite (bresize size) 0 w0 in
  olet (w, c) := odown (size - 1) (fun ix wc =>
    let '(w, c) := wc in
    olet wi1 := bread w (ix + 1) in olet xi := oat xa (size - 2 - ix) in
    olet w := bwrite w ix (- wi1 * (xi - x))%Q in
    olet w := ofor (ix + 1) (size - 1 - (ix + 1)) (fun jx w =>
      olet wj := bread w jx in olet wj1 := bread w (jx + 1) in olet xi := oat xa (size - 2 - ix) in
      bwrite w jx (wj - wj1 * (xi - x))%Q) w in
    olet c := ofor ix (size - ix) (fun jx c =>
      olet cj := bread c (jx - ix) in olet wj := bread w jx in olet wk := bread work (size - ix - 1) in
      bwrite c (jx - ix) (cj + wj * wk)%Q) c in
    Ok (w, c)) (w, c) in
  Ok c.
(** polynomial.hpp:117-127 *)
Definition poly_deriv (w : buf) (xa ya : list Q) (x : Q) : outcome (option Q) :=
  olet s := search xa x in
  match s with
  | None => Throw "NaN"
  | Some _ => olet c := poly_taylor w xa x in olet c1 := bread c 1 in Ok (Some c1)
  end.
Definition polynomial (packets : nat -> nat -> list nat) (st : buf) (xa ya : list Q) (x : Q) : outcome (buf * option Q) :=
  olet st := poly_compute packets st xa ya in olet r := poly_interp st xa ya x in Ok (st, r).
Definition polynomial_derivative (packets : nat -> nat -> list nat) (st : buf) (xa ya : list Q) (x : Q) : outcome (buf * option Q) :=
  olet st := poly_compute packets st xa ya in olet r := poly_deriv st xa ya x in Ok (st, r).

(** * Cubic splines (cspline_base.hpp, cspline.hpp, cspline_periodic.hpp) *)
(** cspline_base.hpp:25-30: [CSplineCoefficients::operator()]. *)
Definition cspline_coefficients (c0 c1 dx dy : Q) : outcome (Q * Q * Q) :=
  olet q := odiv dy dx in
  olet d := odiv (c1 - c0) (3 * dx) in
  Ok (q - dx * (c1 + 2 * c0) * (1 # 3), c0, d)%Q.
(** cspline_base.hpp:77-90 *)
Definition cspline_cell (xs : buf) (xa ya : list Q) (i0 i1 : nat) : outcome (Q * Q * Q * Q * Q) :=
  olet x_lo := oat xa i0 in olet y_lo := oat ya i0 in
  olet x_hi := oat xa i1 in olet y_hi := oat ya i1 in
  olet c0 := bread xs i0 in olet c1 := bread xs i1 in
  olet (b, c, d) := cspline_coefficients c0 c1 (x_hi - x_lo) (y_hi - y_lo) in
  Ok (x_lo, y_lo, b, c, d).
(** cspline_base.hpp:70-92 *)
Definition cspline_interp (xs : buf) (xa ya : list Q) (x : Q) : outcome (option Q) :=
  olet w := search xa x in
  match w with
  | None => Ok None
  | Some (i0, i1) =>
      olet (x0, y0, b, c, d) := cspline_cell xs xa ya i0 i1 in
      let h := (x - x0)%Q in
      Ok (Some (y0 + h * (b + h * (c + h * d)))%Q)
  end.
(** cspline_base.hpp:95-115 *)
Definition cspline_deriv (xs : buf) (xa ya : list Q) (x : Q) : outcome (option Q) :=
  olet w := search xa x in
  match w with
  | None => Ok None
  | Some (i0, i1) =>
      olet (x0, y0, b, c, d) := cspline_cell xs xa ya i0 i1 in
      let h := (x - x0)%Q in
      Ok (Some (b + h * (2 * c + h * 3 * d))%Q)
  end.

(** Members of [CSpline]: [A_], [b_], [x_], [c_], [d_]. *)
Record cspline_state := CSpline { csA : mat; csb : buf; csx : buf; csc : buf; csd : buf }.
Definition cspline_init : cspline_state := CSpline mempty bempty bempty bempty bempty.
Definition cspline_min_size : nat := 4.
(** [(h != 0) ? 1 / h : 0]. *)
Definition inverse_or_0 (h : Q) : Q := if negb (Qeq_bool h 0) then (1 / h)%Q else 0%Q.
(** cspline.hpp:79-96: one turn of the loop building the system. *)
Definition cspline_row (size : nat) (xa ya : list Q) (i : nat) (Ab : mat * buf) : outcome (mat * buf) :=
  let '(A, b) := Ab in
  olet x1 := oat xa (i + 1) in olet y1 := oat ya (i + 1) in
  olet x0 := oat xa i in olet x2 := oat xa (i + 2) in
  olet y0 := oat ya i in olet y2 := oat ya (i + 2) in
  let h_i0 := (x1 - x0)%Q in
  let h_i1 := (x2 - x1)%Q in
  let y_i0 := (y1 - y0)%Q in
  let y_i1 := (y2 - y1)%Q in
  let g_i0 := inverse_or_0 h_i0 in
  let g_i1 := inverse_or_0 h_i1 in
  olet A := if 0 <? i then mwrite A i (i - 1) h_i0 else Ok A in
  olet A := mwrite A i i (2 * (h_i0 + h_i1))%Q in
  olet A := if i <? size - 3 then mwrite A i (i + 1) h_i1 else Ok A in
  olet b := bwrite b i (3 * (y_i1 * g_i1 - y_i0 * g_i0))%Q in
  Ok (A, b).
(** cspline.hpp:43-49: one turn of the forward elimination. *)
Definition thomas_step (A : mat) (b : buf) (i : nat) (cd : buf * buf) : outcome (buf * buf) :=
  let '(c, d) := cd in
  olet item := mread A i (i - 1) in
  olet aii := mread A i i in
  olet cm := bread c (i - 1) in
  olet inv_m := odiv 1 (aii - item * cm) in
  olet up := mread A i (i + 1) in
  olet c := bwrite c i (up * inv_m)%Q in
  olet bi := bread b i in
  olet dm := bread d (i - 1) in
  olet d := bwrite d i ((bi - item * dm) * inv_m)%Q in
  Ok (c, d).
(** cspline.hpp:34-60: [solve_symmetric_tridiagonal]; [x] points to the second cell of
    [x_]. *)
Definition solve_tridiagonal (A : mat) (b x c d : buf) : outcome (buf * buf * buf) :=
  let size := msize A in
  olet a00 := mread A 0 0 in
  olet item := odiv 1 a00 in
  olet a01 := mread A 0 1 in
  olet c := bwrite c 0 (a01 * item)%Q in
  olet b0 := bread b 0 in
  olet d := bwrite d 0 (b0 * item)%Q in
  olet (c, d) := ofor 1 (size - 2) (thomas_step A b) (c, d) in
  olet item := mread A (size - 1) (size - 2) in
  olet bl := bread b (size - 1) in
  olet dm := bread d (size - 2) in
  olet all := mread A (size - 1) (size - 1) in
  olet cm := bread c (size - 2) in
  olet v := odiv (bl - item * dm) (all - item * cm) in
  olet d := bwrite d (size - 1) v in
  olet x := bwrite x (S (size - 1)) v in
  olet x := odown (size - 1) (fun i x =>
    olet di := bread d i in olet ci := bread c i in olet xn := bread x (S (i + 1)) in
    bwrite x (S i) (di - ci * xn)%Q) x in
  Ok (x, c, d).
(** cspline.hpp:63-98: [compute_coefficients]. *)
Definition cspline_compute (st : cspline_state) (xa ya : list Q) : outcome cspline_state :=
  olet _ := check_sizes cspline_min_size xa ya in
  let size := length xa in
  let st := if negb (bsize (csx st) =? size)
            then CSpline (mzero (size - 2)) (bresize (size - 2)) (bzero (bresize size)) (bresize (size - 2)) (bresize (size - 2))
            else st in
  olet (A, b) := ofor 0 (size - 2) (cspline_row size xa ya) (csA st, csb st) in
  olet (x, c, d) := solve_tridiagonal A b (csx st) (csc st) (csd st) in
  Ok (CSpline A b x c d).
Definition cspline (st : cspline_state) (xa ya : list Q) (x : Q) : outcome (cspline_state * option Q) :=
  olet st := cspline_compute st xa ya in olet r := cspline_interp (csx st) xa ya x in Ok (st, r).
Definition cspline_derivative (st : cspline_state) (xa ya : list Q) (x : Q) : outcome (cspline_state * option Q) :=
  olet st := cspline_compute st xa ya in olet r := cspline_deriv (csx st) xa ya x in Ok (st, r).

(** Members of [CSplinePeriodic]: [A_], [b_], [x_], [alpha_], [gamma_], [delta_], [c_], [z_]. *)
Record pspline_state := PSpline { psA : mat; psb : buf; psx : buf; ps_alpha : buf; ps_gamma : buf; ps_delta : buf; psc : buf; psz : buf }.
Definition pspline_init : pspline_state := PSpline mempty bempty bempty bempty bempty bempty bempty bempty.
Definition pspline_min_size : nat := 2.
(** cspline_periodic.hpp:57-61 *)
Definition cyclic_step (A : mat) (i : nat) (agd : buf * buf * buf) : outcome (buf * buf * buf) :=
  let '(al, ga, de) := agd in
  olet aii := mread A i i in olet low := mread A i (i - 1) in olet gm := bread ga (i - 1) in
  olet al := bwrite al i (aii - low * gm)%Q in
  olet up := mread A i (i + 1) in olet ai := bread al i in
  olet g := odiv up ai in
  olet ga := bwrite ga i g in
  olet dm := bread de (i - 1) in
  olet dv := odiv (- dm * low) ai in
  olet de := bwrite de i dv in
  Ok (al, ga, de).
(** Sum over the first [n] cells (the [.segment(0, n). ... .sum()] expressions). *)
Definition osum (n : nat) (f : nat -> outcome Q) : outcome Q :=
  ofor 0 n (fun i s => olet v := f i in Ok (s + v)%Q) 0%Q.
(** cspline_periodic.hpp:40-100: [solve_symmetric_cyclic_tridiagonal]; [x] points to the
    second cell of [x_]. For [size == 2] the column [size_m3 = -1] is read (line 68). *)
Definition solve_cyclic (A : mat) (b x al ga de c z : buf) : outcome (buf * buf * buf * buf * buf * buf) :=
  let size := msize A in
  let m1 := size - 1 in let m2 := size - 2 in let m3 := size - 3 in
  if size =? 1 then
    olet b0 := bread b 0 in olet a00 := mread A 0 0 in
    olet v := odiv b0 a00 in
    olet x := bwrite x 1 v in Ok (x, al, ga, de, c, z)
  else
    olet a00 := mread A 0 0 in
    olet al := bwrite al 0 a00 in
    olet a01 := mread A 0 1 in
    olet v := odiv a01 a00 in olet ga := bwrite ga 0 v in
    olet am0 := mread A m1 0 in
    olet v := odiv am0 a00 in olet de := bwrite de 0 v in
    if size =? 2 then UB "A_(size_m2, -1)"
    else
    olet (al, ga, de) := ofor 1 (m2 - 1) (cyclic_step A) (al, ga, de) in
    olet sum := osum m2 (fun i => olet a := bread al i in olet d := bread de i in Ok (a * d * d)%Q) in
    olet a22 := mread A m2 m2 in olet a23 := mread A m2 m3 in olet g3 := bread ga m3 in
    olet al := bwrite al m2 (a22 - a23 * g3)%Q in
    olet a21 := mread A m2 m1 in olet d3 := bread de m3 in olet al2 := bread al m2 in
    olet v := odiv (a21 - a23 * d3) al2 in
    olet ga := bwrite ga m2 v in
    olet a11 := mread A m1 m1 in olet g2 := bread ga m2 in
    olet al := bwrite al m1 (a11 - sum - al2 * g2 * g2)%Q in
    olet b0 := bread b 0 in
    olet z := bwrite z 0 b0 in
    olet z := ofor 1 (m1 - 1) (fun i z =>
      olet bi := bread b i in olet zm := bread z (i - 1) in olet gm := bread ga (i - 1) in
      bwrite z i (bi - zm * gm)%Q) z in
    olet sum := osum m2 (fun i => olet d := bread de i in olet zi := bread z i in Ok (d * zi)%Q) in
    olet b1 := bread b m1 in olet g2 := bread ga m2 in olet z2 := bread z m2 in
    olet z := bwrite z m1 (b1 - sum - g2 * z2)%Q in
    olet c := ofor 0 size (fun i c => olet zi := bread z i in olet ai := bread al i in
      olet v := odiv zi ai in bwrite c i v) c in
    olet c1 := bread c m1 in
    olet x := bwrite x (S m1) c1 in
    olet c2 := bread c m2 in olet g2 := bread ga m2 in
    olet x := bwrite x (S m2) (c2 - g2 * c1)%Q in
    olet x := odown m2 (fun i x =>
      olet ci := bread c i in olet gi := bread ga i in olet xn := bread x (S (i + 1)) in
      olet di := bread de i in olet xl := bread x (S m1) in
      bwrite x (S i) (ci - gi * xn - di * xl)%Q) x in
    Ok (x, al, ga, de, c, z).
(** cspline_periodic.hpp:122-133 *)
Definition pspline_row (xa ya : list Q) (i : nat) (Ab : mat * buf) : outcome (mat * buf) :=
  let '(A, b) := Ab in
  olet x1 := oat xa (i + 1) in olet x0 := oat xa i in olet x2 := oat xa (i + 2) in
  olet y1 := oat ya (i + 1) in olet y0 := oat ya i in olet y2 := oat ya (i + 2) in
  let h_i0 := (x1 - x0)%Q in
  let h_i1 := (x2 - x1)%Q in
  let y_i0 := (y1 - y0)%Q in
  let y_i1 := (y2 - y1)%Q in
  let g_i0 := inverse_or_0 h_i0 in
  let g_i1 := inverse_or_0 h_i1 in
  olet A := mwrite A (i + 1) i h_i1 in
  olet A := mwrite A i i (2 * (h_i0 + h_i1))%Q in
  olet A := mwrite A i (i + 1) h_i1 in
  olet b := bwrite b i (3 * (y_i1 * g_i1 - y_i0 * g_i0))%Q in
  Ok (A, b).
(** cspline_periodic.hpp:103-149: [compute_coefficients]. The buffers only grow: [A_] keeps
    the size of the largest call. *)
Definition pspline_compute (st : pspline_state) (xa ya : list Q) : outcome pspline_state :=
  olet _ := check_sizes pspline_min_size xa ya in
  let size := length xa in
  let st := if bsize (psx st) <? size
            then PSpline (mzero (size - 1)) (bresize (size - 1)) (bzero (bresize size))
                   (bresize (size - 1)) (bresize (size - 1)) (bresize (size - 1)) (bresize size) (bresize size)
            else st in
  olet (A, b) := ofor 0 (size - 2) (pspline_row xa ya) (psA st, psb st) in
  let i := size - 2 in
  olet xl := oat xa (i + 1) in olet xi := oat xa i in olet x1 := oat xa 1 in olet x0 := oat xa 0 in
  olet yl := oat ya (i + 1) in olet yi := oat ya i in olet y1 := oat ya 1 in olet y0 := oat ya 0 in
  let h_i0 := (xl - xi)%Q in
  let h_i1 := (x1 - x0)%Q in
  let y_i0 := (yl - yi)%Q in
  let y_i1 := (y1 - y0)%Q in
  let g_i0 := inverse_or_0 h_i0 in
  let g_i1 := inverse_or_0 h_i1 in
  olet A := mwrite A i 0 h_i1 in
  olet A := mwrite A i i (2 * (h_i0 + h_i1))%Q in
  olet A := mwrite A 0 i h_i1 in
  olet b := bwrite b i (3 * (y_i1 * g_i1 - y_i0 * g_i0))%Q in
  olet (x, al, ga, de, c, z) := solve_cyclic A b (psx st) (ps_alpha st) (ps_gamma st) (ps_delta st) (psc st) (psz st) in
  olet v := bread x (size - 1) in
  olet x := bwrite x 0 v in
  Ok (PSpline A b x al ga de c z).
Definition pspline (st : pspline_state) (xa ya : list Q) (x : Q) : outcome (pspline_state * option Q) :=
  olet st := pspline_compute st xa ya in olet r := cspline_interp (psx st) xa ya x in Ok (st, r).
Definition pspline_derivative (st : pspline_state) (xa ya : list Q) (x : Q) : outcome (pspline_state * option Q) :=
  olet st := pspline_compute st xa ya in olet r := cspline_deriv (psx st) xa ya x in Ok (st, r).
