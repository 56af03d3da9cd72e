(** Model of [fill::gauss_seidel] (include/pyinterp/fill.hpp:36-342): first guess,
    red-black relaxation, iteration, and its multi-threaded version.

    Cells are rationals: rounding is not modelled and the values of the grid are finite;
    [None] is NaN in the input. A grid has [nx] rows (x axis) and [ny] columns (y axis). *)
From Verif Require Import Base.
Open Scope Z_scope.

Definition cell := (nat * nat)%type.
Definition grid := cell -> Q.
Definition ceqb (p q : cell) : bool := Nat.eqb (fst p) (fst q) && Nat.eqb (snd p) (snd q).
(** Store in a cell. *)
Definition upd (g : grid) (p : cell) (v : Q) : grid := fun q => if ceqb q p then v else g q.
(** [std::max(a, b)]. *)
Definition smax (a b : Q) : Q := if Qltb a b then b else a.

(** fill.hpp:304, 314: [hasNaN], [isNaN] of the cells of the grid. *)
Definition nan_mask (g : cell -> option Q) : cell -> bool := fun p => match g p with None => true | Some _ => false end.
Definition cells (nx ny : nat) : list cell := flat_map (fun ix => map (fun iy => (ix, iy)) (seq 0 ny)) (seq 0 nx).
Definition has_nan (nx ny : nat) (g : cell -> option Q) : bool := existsb (nan_mask g) (cells nx ny).

(** fill.hpp:319: zero as first guess. *)
Definition guess_zero (g : cell -> option Q) : grid := fun p => match g p with Some v => v | None => 0 end%Q.
(** fill.hpp:36-78, [set_zonal_average]; the mean is the sum divided by the count. The
    bands of columns are disjoint ([detail::dispatch]), each column is handled alone. *)
Fixpoint zonal_sum (g : cell -> option Q) (iy : nat) (ixs : list nat) : Q * Z :=
  match ixs with
  | [] => (0%Q, 0)
  | ix :: t => let (s, n) := zonal_sum g iy t in
               match g (ix, iy) with Some v => ((v + s)%Q, n + 1) | None => (s, n) end
  end.
Definition zonal_guess (nx : nat) (g : cell -> option Q) (iy : nat) : Q :=
  let (s, n) := zonal_sum g iy (seq 0 nx) in if n =? 0 then 0%Q else (s / inject_Z n)%Q.
Definition guess_zonal (nx : nat) (g : cell -> option Q) : grid :=
  fun p => match g p with Some v => v | None => zonal_guess nx g (snd p) end.
Inductive first_guess := Zero | ZonalAverage.
Definition initial (fg : first_guess) (nx : nat) (g : cell -> option Q) : grid :=
  match fg with Zero => guess_zero g | ZonalAverage => guess_zonal nx g end.

(** fill.hpp:135-146: the four neighbours read to update a cell; an index outside the
    grid is an out-of-bounds access. *)
Definition at_index (i : Z) (n : nat) : outcome nat :=
  if (0 <=? i) && (i <? Z.of_nat n) then Ok (Z.to_nat i) else UB "grid access".
Definition neighbours (nx ny : nat) (circle : bool) (p : cell) : outcome (list cell) :=
  let ix := Z.of_nat (fst p) in let iy := Z.of_nat (snd p) in
  let xs := Z.of_nat nx in let ys := Z.of_nat ny in
  olet x0 := at_index (if ix =? 0 then (if circle then xs - 1 else 1) else ix - 1) nx in
  olet x1 := at_index (if ix =? xs - 1 then (if circle then 0 else xs - 2) else ix + 1) nx in
  olet y0 := at_index (if iy =? 0 then 1 else iy - 1) ny in
  olet y1 := at_index (if iy =? ys - 1 then ys - 2 else iy + 1) ny in
  Ok [(x0, snd p); (x1, snd p); (fst p, y0); (fst p, y1)].

(** fill.hpp:113-125, [cell_fill]: the residual. *)
Definition residual (relax : Q) (a b c d cell : Q) : Q := (((1 # 4) * (a + b + c + d) - cell) * relax)%Q.
Definition cell_fill (nx ny : nat) (circle : bool) (relax : Q) (st : grid * Q) (p : cell) : outcome (grid * Q) :=
  let (g, m) := st in
  olet ns := neighbours nx ny circle p in
  match ns with
  | [a; b; c; d] =>
      let r := residual relax (g a) (g b) (g c) (g d) (g p) in
      Ok (upd g p (g p + r)%Q, smax m (Qabs r))
  | _ => UB "neighbours"
  end.
Fixpoint cell_loop (nx ny : nat) (circle : bool) (relax : Q) (st : grid * Q) (ps : list cell) : outcome (grid * Q) :=
  match ps with
  | [] => Ok st
  | p :: t => olet st' := cell_fill nx ny circle relax st p in cell_loop nx ny circle relax st' t
  end.
(** fill.hpp:131-147: the cells updated by a worker, in order. *)
Definition selected (mask : cell -> bool) (red_black : nat) (p : cell) : bool :=
  mask p && Nat.eqb ((fst p + snd p) mod 2) red_black.
Definition worker_cells (nx : nat) (mask : cell -> bool) (y_start y_end red_black : nat) : list cell :=
  filter (selected mask red_black)
    (flat_map (fun ix => map (fun iy => (ix, iy)) (seq y_start (y_end - y_start))) (seq 0 nx)).
(** fill.hpp:104-151 with [num_threads == 1] (155-168). *)
Definition calculate (nx ny : nat) (circle : bool) (relax : Q) (mask : cell -> bool) (g : grid) (red_black : nat) : outcome (grid * Q) :=
  cell_loop nx ny circle relax (g, 0%Q) (worker_cells nx mask 0 ny red_black).
(** fill.hpp:168: [std::max(calculate(0), calculate(1))]. C++ does not specify which call is
    made first: [first] is the colour of the first one. *)
Definition sweep (nx ny : nat) (circle : bool) (relax : Q) (mask : cell -> bool) (first : nat) (g : grid) : outcome (grid * Q) :=
  olet (g1, m1) := calculate nx ny circle relax mask g first in
  olet (g2, m2) := calculate nx ny circle relax mask g1 (1 - first) in
  Ok (g2, if Nat.eqb first 0 then smax m1 m2 else smax m2 m1).

(** fill.hpp:329-340: at most [max_iterations] sweeps, [k] left, [it] done. *)
Fixpoint iterate (step : grid -> outcome (grid * Q)) (epsilon : Q) (k : nat) (g : grid) (it : nat) (m : Q) : outcome (grid * nat * Q) :=
  match k with
  | O => Ok (g, it, m)
  | S k' =>
      olet (g', m') := step g in
      if Qltb m' epsilon then Ok (g', S it, m') else iterate step epsilon k' g' (S it) m'
  end.
(** fill.hpp:297-342, for a first guess among the two of the enumeration. The returned grid is the argument after the call. *)
Definition gauss_seidel (nx ny : nat) (fg : first_guess) (circle : bool) (max_iterations : nat) (epsilon relax : Q)
    (first : nat) (g : cell -> option Q) : outcome ((cell -> option Q) * nat * Q) :=
  if has_nan nx ny g then
    olet (r, it, m) := iterate (sweep nx ny circle relax (nan_mask g) first) epsilon max_iterations (initial fg nx g) 0 0%Q in
    Ok (fun p => Some (r p), it, m)
  else Ok (g, 0%nat, 0%Q).

(** ** Threads (fill.hpp:170-197)

    Each thread runs its worker as a sequence of loads and stores on the shared grid; it
    has private registers and a private maximum residual. *)
Inductive micro := Load (p : cell) | Update (p : cell).
Record tlocal := TLocal { regs : list Q; tmax : Q }.
Definition machine := (grid * (nat -> tlocal))%type.
Definition set_local (l : nat -> tlocal) (t : nat) (v : tlocal) : nat -> tlocal := fun u => if Nat.eqb u t then v else l u.
(** [Update p] is the store [cell += residual] and the update of [max_residual], from the
    loaded values (the cell is loaded twice). *)
Definition micro_step (relax : Q) (s : machine) (e : nat * micro) : machine :=
  let (g, l) := s in
  let t := fst e in
  match snd e with
  | Load p => (g, set_local l t (TLocal (regs (l t) ++ [g p]) (tmax (l t))))
  | Update p =>
      match regs (l t) with
      | [a; b; c; d; x; y] =>
          let r := residual relax a b c d x in
          (upd g p (y + r)%Q, set_local l t (TLocal [] (smax (tmax (l t)) (Qabs r))))
      | _ => s
      end
  end.
Definition run_schedule (relax : Q) (sched : list (nat * micro)) (s : machine) : machine := fold_left (micro_step relax) sched s.

(** The instructions of a worker. *)
Definition cell_program (nx ny : nat) (circle : bool) (p : cell) : outcome (list micro) :=
  olet ns := neighbours nx ny circle p in Ok (map Load ns ++ [Load p; Load p; Update p]).
Fixpoint program (nx ny : nat) (circle : bool) (ps : list cell) : outcome (list micro) :=
  match ps with
  | [] => Ok []
  | p :: t => olet a := cell_program nx ny circle p in olet b := program nx ny circle t in Ok (a ++ b)
  end.
(** fill.hpp:174-190: band of columns of thread [t] among [n]. *)
Definition band (ny n t : nat) : nat * nat :=
  let shift := (ny / n)%nat in
  (t * shift, if Nat.eqb t (n - 1) then ny else t * shift + shift)%nat.
Definition thread_program (nx ny : nat) (circle : bool) (mask : cell -> bool) (red_black n t : nat) : outcome (list micro) :=
  program nx ny circle (worker_cells nx mask (fst (band ny n t)) (snd (band ny n t)) red_black).
(** [*std::max_element(max_residuals.begin(), max_residuals.end())]. *)
Fixpoint max_element (m : Q) (l : list Q) : Q :=
  match l with [] => m | a :: t => max_element (smax m a) t end.
