(** Model of the grid of streaming histograms: include/pyinterp/histogram2d.hpp.

    Simplifications: exact rationals instead of doubles; finite coordinates (a NaN value is
    [None]); the serialization of the cells is modelled twice: as a copy of the cells (objects) and,
    byte by byte, on the raw memory images ([dump_matrix], [load_matrix]). *)
From Verif Require Import Base AxisModel HistModel HistSerModel BinningModel.
Open Scope Z_scope.

Record hist2 : Type := Hist2 { g_x : axis; g_y : axis; g_cells : cells hist }.
Definition g_rows (g : hist2) : Z := c_size (a_cont (g_x g)).
Definition g_cols (g : hist2) : Z := c_size (a_cont (g_y g)).
Definition with_cells (g : hist2) (m : cells hist) : hist2 := Hist2 (g_x g) (g_y g) m.

Section Grid.
  Variable lg : Q -> Q.

  (** :40-50; the same [resize] is applied to every default constructed cell. *)
  Definition new_hist2 (x y : axis) (bin_count : option Z) : outcome hist2 :=
    match bin_count with
    | None => Ok (Hist2 x y (fun _ _ => hist_new))
    | Some n => olet c := hist_resize lg hist_new n in Ok (Hist2 x y (fun _ _ => c))
    end.

  (** :89-101, one iteration of [push]. *)
  Definition push2_1 (g : hist2) (s : Q * Q * option Q) : outcome hist2 :=
    let '(x, y, z) := s in
    match z with
    | None => Ok g
    | Some value =>
        olet ix := find_index (g_x g) x true in
        olet iy := find_index (g_y g) y true in
        if negb (ix =? -1) && negb (iy =? -1) then
          if in_matrix (g_rows g) (g_cols g) ix iy then
            olet c := hist_push lg (g_cells g ix iy) value 1 in
            Ok (with_cells g (upd (g_cells g) ix iy c))
          else UB "matrix access"
        else Ok g
    end.
  Fixpoint push2_loop (g : hist2) (l : list (Q * Q * option Q)) : outcome hist2 :=
    match l with
    | [] => Ok g
    | s :: t => olet g := push2_1 g s in push2_loop g t
    end.
  (** :74-103 [push]; the sizes of the three arrays are compared. *)
  Definition push2 (g : hist2) (x y : list Q) (z : list (option Q)) : outcome hist2 :=
    if negb (zlen x =? zlen y) || negb (zlen x =? zlen z) then Throw "could not be broadcast together with shape"
    else push2_loop g (combine (combine x y) z).

  (** detail/math/streaming_histogram.hpp:141-143. *)
  Definition hist_clear (h : hist) : hist := Hist (h_weighted h) (h_bin_count h) 0 dbl_max dbl_min [].
  (** histogram2d.hpp:106-112. *)
  Definition clear2 (g : hist2) : hist2 :=
    with_cells g (fun i j => if in_matrix (g_rows g) (g_cols g) i j then hist_clear (g_cells g i j) else g_cells g i j).

  (** :207-220, one cell; [size()] is the number of bins. *)
  Definition merge_cell2 (lhs rhs : hist) : outcome hist :=
    if (zlen (h_bins lhs) =? 0) && negb (zlen (h_bins rhs) =? 0) then Ok rhs
    else if negb (zlen (h_bins lhs) =? 0) && negb (zlen (h_bins rhs) =? 0) then hist_merge lg lhs rhs
    else Ok lhs.
  (** The two nested loops, in order. *)
  Fixpoint merge_loop (lhs rhs : cells hist) (l : list (Z * Z)) : outcome (cells hist) :=
    match l with
    | [] => Ok lhs
    | (i, j) :: t =>
        olet c := merge_cell2 (lhs i j) (rhs i j) in
        merge_loop (upd lhs i j c) rhs t
    end.
  Definition all_cells (rows cols : Z) : list (Z * Z) := list_prod (map Z.of_nat (seq 0 (Z.to_nat rows))) (map Z.of_nat (seq 0 (Z.to_nat cols))).
  (** :202-223 [operator+=]. *)
  Definition add2 (g other : hist2) : outcome hist2 :=
    if negb (axis_eqb (g_x g) (g_x other)) || negb (axis_eqb (g_y g) (g_y other))
    then Throw "Unable to combine different grids"
    else olet m := merge_loop (g_cells g) (g_cells other) (all_cells (g_rows g) (g_cols g)) in
         Ok (with_cells g m).

  (** :172-175 and :178-199; [marshal] writes the number of rows and of columns and the cells. *)
  Record hist2_state : Type := Hist2State { gs_x : axis_state; gs_y : axis_state; gs_rows : Z; gs_cols : Z; gs_cells : cells hist }.
  Definition getstate2 (g : hist2) : hist2_state := Hist2State (getstate (g_x g)) (getstate (g_y g)) (g_rows g) (g_cols g) (g_cells g).
  Definition setstate2 (s : hist2_state) : outcome hist2 :=
    olet x := setstate (gs_x s) in
    olet y := setstate (gs_y s) in
    olet g := new_hist2 x y (Some 40) in
    if negb (gs_rows s =? g_rows g) || negb (gs_cols s =? g_cols g) then Throw "invalid state"
    else Ok (with_cells g (gs_cells s)).
End Grid.

(** :226-257 [histograms]: the bins of every cell, padded with (NaN, 0); a NaN value is [None]. *)
Definition padded (count : Z) (h : hist) : list (option Q * Q) :=
  map (fun b => (Some (bvalue b), bweight b)) (h_bins h) ++ repeat (None, 0%Q) (Z.to_nat (count - zlen (h_bins h))).
Definition bins_count (g : hist2) : Z :=
  fold_left (fun m ij => Z.max m (zlen (h_bins (g_cells g (fst ij) (snd ij))))) (all_cells (g_rows g) (g_cols g)) 0.
Definition histograms (g : hist2) (i j : Z) : list (option Q * Q) := padded (bins_count g) (g_cells g i j).

(** ** Bytes *)
Section Bytes.
  Variable tsz : nat.
  (** :287-306; [rows] and [cols] are [Eigen::Index]; the cells in row order. *)
  Definition dump_matrix (rows cols : Z) (l : list raw_hist) : list Z :=
    le_bytes 8 rows ++ le_bytes 8 cols ++ concat (map (fun h => le_bytes 8 (zlen (dump tsz h)) ++ dump tsz h) l).
  (** :308-333, for a matrix of [rows] rows and [cols] columns. *)
  Definition load_matrix (rows cols : Z) (data : list Z) : outcome (list raw_hist) :=
    olet (r, data) := get 8 data in
    olet (c, data) := get 8 data in
    if negb (le_value r =? rows) || negb (le_value c =? cols) then Throw "invalid state"
    else load_items tsz (Z.to_nat (rows * cols)) data.
End Bytes.
