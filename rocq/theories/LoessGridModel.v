(** Model of [fill::loess] on whole grids of two, three and four dimensions
    (include/pyinterp/fill.hpp:410-679), with the threads of [detail::dispatch], and of the Python function
    src/pyinterp/fill.py:19-53.

    Simplifications: those of LoessModel (exact rationals, NaN is [None], the weight is a parameter); one step
    of a thread computes and stores everything that its loop does for one index of the dimension shared out
    (a row of a 2-D grid, a slice [iz] of a 3-D grid, a block [iu] of a 4-D grid): two different indices
    write different cells.  The window vectors [x_frame] and [y_frame] that a thread reuses are rewritten
    entirely by [frame_index] before they are read. *)
From Verif Require Import Base MathModel FillModel LoessModel ThreadModel.
Open Scope Z_scope.

Definition zseq (n : Z) : list Z := map Z.of_nat (seq 0 (Z.to_nat n)).
(** A loop whose iterations each give a value. *)
Fixpoint oloop {A : Type} (f : Z -> outcome A) (l : list Z) : outcome (list A) :=
  match l with
  | [] => Ok []
  | i :: t => olet a := f i in olet r := oloop f t in Ok (a :: r)
  end.

Section Grid.
  Variable tricube : Q -> Q.
  Variables (xa ya : list Q) (x_angle : bool) (nx ny : Z) (vt : value_type).

  (** fill.hpp:432-446, 588-601, 647-660: what is computed once for the abscissa [ix]: the window [x_frame],
      its first coordinate and the normalised coordinate. *)
  Definition prepare (ix : Z) : outcome (list Z * Q * Q) :=
    olet x := coordinate xa ix in
    olet xf := frame_index ix (zlen xa) x_angle (nx * 2 + 1) in
    olet x0 := coordinate xa (hd 0 xf) in
    Ok (xf, x0, norm_x x_angle x0 x).
  (** fill.hpp:448-489 in a 2-D grid, 511-563 ([loess_]) in the others: [grid] is the horizontal slice read. *)
  Definition cell (grid : Z -> Z -> option Q) (p : list Z * Q * Q) (ix iy : Z) : outcome (option Q) :=
    let '(xf, x0, x) := p in
    let z := grid ix iy in
    if processed vt z then
      olet y := coordinate ya iy in
      olet yf := frame_index iy (zlen ya) false (ny * 2 + 1) in
      olet (value, weight) := loop_x tricube xa ya x_angle nx ny grid x0 x y xf yf (0, 0)%Q in
      if Qeq_bool weight 0 then Ok z else Ok (Some (value / weight)%Q)
    else Ok z.

  (** fill.hpp:432-491: a row of a 2-D grid. *)
  Definition body2 (g : Z -> Z -> option Q) (ix : Z) : outcome (list (option Q)) :=
    olet p := prepare ix in oloop (cell g p ix) (zseq (zlen ya)).
  (** fill.hpp:587-609: a slice of a 3-D grid. *)
  Definition body3 (g : Z -> Z -> Z -> option Q) (iz : Z) : outcome (list (list (option Q))) :=
    oloop (fun ix => olet p := prepare ix in oloop (cell (fun i j => g i j iz) p ix) (zseq (zlen ya))) (zseq (zlen xa)).
  (** fill.hpp:646-670: a block of a 4-D grid; [nz] is the size of the third axis. *)
  Definition body4 (nz : Z) (g : Z -> Z -> Z -> Z -> option Q) (iu : Z) : outcome (list (list (list (option Q)))) :=
    oloop (fun ix => olet p := prepare ix in
      oloop (fun iy => oloop (fun iz => cell (fun i j => g i j iz iu) p ix iy) (zseq nz)) (zseq (zlen ya))) (zseq (zlen xa)).
End Grid.

(** The loop of a worker (fill.hpp:421-495, 579-612, 635-673): an exception ends it, what has no defined
    behaviour is kept as the value. *)
Definition guarded {A : Type} (f : Z -> outcome A) (i : Z) : outcome A + string :=
  match f i with Ok a => inl (Ok a) | Throw w => inr w | UB w => inl (UB w) end.

(** fill.hpp:376-388 [check_windows_size], then 497-501, 614-618, 675-679: the result is returned once the
    threads are joined; the exception recorded by the workers is not looked at.  A cell that was not written
    is [None]. *)
Inductive filtered {A : Type} (nx ny : Z) (f : Z -> outcome A) (size num_threads hardware : Z) : outcome (list (option (outcome A))) -> Prop :=
| Filtered_nx : nx < 1 -> filtered nx ny f size num_threads hardware (Throw "nx must be >= 1")
| Filtered_ny : 1 <= nx -> ny < 1 -> filtered nx ny f size num_threads hardware (Throw "ny must be >= 1")
| Filtered_done : forall l c, 1 <= nx -> 1 <= ny -> dispatch_ranges size num_threads hardware = Ok l ->
    steps (guarded f) (start_config size l) c -> finished c -> filtered nx ny f size num_threads hardware (Ok (out c))
| Filtered_error : forall w, 1 <= nx -> 1 <= ny -> dispatch_ranges size num_threads hardware = UB w ->
    filtered nx ny f size num_threads hardware (UB w).

(** fill.hpp:410-508, 566-619, 622-679. *)
Definition loess2 tricube xa ya x_angle nx ny vt (g : Z -> Z -> option Q) (num_threads hardware : Z) :=
  filtered nx ny (body2 tricube xa ya x_angle nx ny vt g) (zlen xa) num_threads hardware.
Definition loess3 tricube xa ya x_angle (nz : Z) nx ny vt (g : Z -> Z -> Z -> option Q) (num_threads hardware : Z) :=
  filtered nx ny (body3 tricube xa ya x_angle nx ny vt g) nz num_threads hardware.
Definition loess4 tricube xa ya x_angle (nz nu : Z) nx ny vt (g : Z -> Z -> Z -> Z -> option Q) (num_threads hardware : Z) :=
  filtered nx ny (body4 tricube xa ya x_angle nx ny vt nz g) nu num_threads hardware.

(** The cells of the three results. *)
Definition stored {A : Type} (r : list (option (outcome A))) (i : Z) : option (outcome A) :=
  match znth r i with Some v => v | None => None end.
Definition read2 (r : list (option (outcome (list (option Q))))) (ix iy : Z) : option (option Q) :=
  match stored r ix with Some (Ok row) => znth row iy | _ => None end.
Definition read3 (r : list (option (outcome (list (list (option Q)))))) (ix iy iz : Z) : option (option Q) :=
  match stored r iz with
  | Some (Ok s) => match znth s ix with Some row => znth row iy | None => None end
  | _ => None
  end.
Definition read4 (r : list (option (outcome (list (list (list (option Q))))))) (ix iy iz iu : Z) : option (option Q) :=
  match stored r iu with
  | Some (Ok b) =>
      match znth b ix with
      | Some s => match znth s iy with Some row => znth row iz | None => None end
      | None => None
      end
  | _ => None
  end.

(** fill.py:43-53: the type of the values, [None] when the argument is not given. *)
Definition py_value_type (v : option string) : outcome value_type :=
  let name := match v with
              | None => "undefined"%string
              | Some s => if String.eqb s "" then "undefined"%string else s
              end in
  if String.eqb name "undefined" then Ok Undefined
  else if String.eqb name "defined" then Ok Defined
  else if String.eqb name "all" then Ok All
  else Throw "value type is not defined".
