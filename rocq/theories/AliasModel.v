(** Model of the operators [+=] of statistics and of histograms as they run on memory, statement by statement:
    the right operand may be the left one ([s += s]), so that what is written in the left operand is read in
    the right one.  StatsModel.acc_merge, BinningModel.add_in_place, HistModel.hist_merge and Hist2dModel.add2 are
    functions of two values.

    detail/math/descriptive_statistics.hpp:153-200, detail/math/streaming_histogram.hpp:164-176, binning.hpp:223-240,
    histogram2d.hpp:206-221 and the loop of Eigen of descriptive_statistics.hpp:131, streaming_histogram.hpp:142
    ([accumulators_ += other.accumulators_], by references). *)
From Verif Require Import Base StatsModel HistModel BinningModel Hist2dModel.
Open Scope Z_scope.

(** An object is a matrix of accumulators (or of histograms); a place is a cell of an object. *)
Definition memory (A : Type) : Type := nat -> cells A.
Definition place : Type := (nat * Z * Z)%type.
Definition same_place (p q : place) : bool :=
  let '(o, i, j) := p in let '(o', i', j') := q in (o =? o')%nat && (i =? i') && (j =? j').
Definition get {A} (m : memory A) (p : place) : A := let '(o, i, j) := p in m o i j.
Definition set {A} (m : memory A) (p : place) (v : A) : memory A :=
  fun o i j => if same_place (o, i, j) p then v else m o i j.

(** ** Statistics *)
Definition set_count (a : acc) v := Acc v (a_sow a) (a_mean a) (a_min a) (a_max a) (a_sum a) (a_mom2 a) (a_mom3 a) (a_mom4 a).
Definition set_sow (a : acc) v := Acc (a_count a) v (a_mean a) (a_min a) (a_max a) (a_sum a) (a_mom2 a) (a_mom3 a) (a_mom4 a).
Definition set_mean (a : acc) v := Acc (a_count a) (a_sow a) v (a_min a) (a_max a) (a_sum a) (a_mom2 a) (a_mom3 a) (a_mom4 a).
Definition set_min (a : acc) v := Acc (a_count a) (a_sow a) (a_mean a) v (a_max a) (a_sum a) (a_mom2 a) (a_mom3 a) (a_mom4 a).
Definition set_max (a : acc) v := Acc (a_count a) (a_sow a) (a_mean a) (a_min a) v (a_sum a) (a_mom2 a) (a_mom3 a) (a_mom4 a).
Definition set_sum (a : acc) v := Acc (a_count a) (a_sow a) (a_mean a) (a_min a) (a_max a) v (a_mom2 a) (a_mom3 a) (a_mom4 a).
Definition set_mom2 (a : acc) v := Acc (a_count a) (a_sow a) (a_mean a) (a_min a) (a_max a) (a_sum a) v (a_mom3 a) (a_mom4 a).
Definition set_mom3 (a : acc) v := Acc (a_count a) (a_sow a) (a_mean a) (a_min a) (a_max a) (a_sum a) (a_mom2 a) v (a_mom4 a).
Definition set_mom4 (a : acc) v := Acc (a_count a) (a_sow a) (a_mean a) (a_min a) (a_max a) (a_sum a) (a_mom2 a) (a_mom3 a) v.

(** Assignments to members of [*this], one after the other: each one computes the new left operand from the two operands
    as they are in memory at this moment. *)
Fixpoint run {A} (m : memory A) (l r : place) (statements : list (A -> A -> A)) : memory A :=
  match statements with
  | [] => m
  | st :: t => run (set m l (st (get m l) (get m r))) l r t
  end.
(** descriptive_statistics.hpp:157-163. *)
Definition min_max : list (acc -> acc -> acc) :=
  [ (fun a b => if nlt (a_min b) (a_min a) then set_min a (a_min b) else a);
    (fun a b => if nlt (a_max a) (a_max b) then set_max a (a_max b) else a) ].
(** :173-196, with the local constants. *)
Definition moments (w delta delta_w delta2_w2 w2 ww rhs_w2 : num) : list (acc -> acc -> acc) :=
  [ (fun a b => set_mom4 a (a_mom4 a + (a_mom4 b + ww * (w2 - ww + rhs_w2) * delta * delta_w * delta2_w2
                   + N 6 * (w2 * a_mom2 b + rhs_w2 * a_mom2 a) * delta2_w2
                   + N 4 * (a_sow a * a_mom3 b - a_sow b * a_mom3 a) * delta_w))%num);
    (fun a b => set_mom3 a (a_mom3 a + (a_mom3 b + ww * (a_sow a - a_sow b) * delta * delta2_w2
                   + N 3 * (a_sow a * a_mom2 b - a_sow b * a_mom2 a) * delta_w))%num);
    (fun a b => set_mom2 a (a_mom2 a + (a_mom2 b + ww * delta * delta_w))%num);
    (fun a b => set_mean a (a_mean a + a_sow b * delta_w)%num);
    (fun a _ => set_sow a w);
    (fun a b => set_count a (a_count a + a_count b));
    (fun a b => set_sum a (a_sum a + a_sum b)%num) ].
(** :153-200; [l] is [*this], [r] is [rhs]. *)
Definition stats_iadd (m : memory acc) (l r : place) : memory acc :=
  let w := (a_sow (get m l) + a_sow (get m r))%num in
  let m := run m l r min_max in
  let delta := (a_mean (get m r) - a_mean (get m l))%num in
  let delta_w := (delta / w)%num in
  let delta2_w2 := (delta_w * delta_w)%num in
  let w2 := (a_sow (get m l) * a_sow (get m l))%num in
  let ww := (a_sow (get m l) * a_sow (get m r))%num in
  let rhs_w2 := (a_sow (get m r) * a_sow (get m r))%num in
  run m l r (moments w delta delta_w delta2_w2 w2 ww rhs_w2).

(** descriptive_statistics.hpp:131 (the wrapper): every element, in any case. *)
Fixpoint array_iadd (m : memory acc) (l r : nat) (cs : list (Z * Z)) : memory acc :=
  match cs with
  | [] => m
  | (i, j) :: t => array_iadd (stats_iadd m (l, i, j) (r, i, j)) l r t
  end.
(** binning.hpp:223-240. *)
Definition cell_iadd (m : memory acc) (l r : place) : memory acc :=
  if (a_count (get m l) =? 0) && negb (a_count (get m r) =? 0) then set m l (get m r)
  else if negb (a_count (get m l) =? 0) && negb (a_count (get m r) =? 0) then stats_iadd m l r
  else m.
Fixpoint binning_iadd (m : memory acc) (l r : nat) (cs : list (Z * Z)) : memory acc :=
  match cs with
  | [] => m
  | (i, j) :: t => binning_iadd (cell_iadd m (l, i, j) (r, i, j)) l r t
  end.

(** ** Streaming histograms *)
Definition set_hcount (h : hist) v := Hist (h_weighted h) (h_bin_count h) v (h_min h) (h_max h) (h_bins h).
Definition set_hmin (h : hist) v := Hist (h_weighted h) (h_bin_count h) (h_count h) v (h_max h) (h_bins h).
Definition set_hmax (h : hist) v := Hist (h_weighted h) (h_bin_count h) (h_count h) (h_min h) v (h_bins h).
Definition set_bins (h : hist) v := Hist (h_weighted h) (h_bin_count h) (h_count h) (h_min h) (h_max h) v.

Section Histograms.
  Variable lg : Q -> Q.
  (** streaming_histogram.hpp:172-174, [for (const auto &item : other.bins_)]: the iterators are those of the
      vector of [r] when the loop begins; an insertion in this vector invalidates them ([valid]), and their next use
      (comparison, increment) is undefined.  The update of a weight does not.  [ixs]: positions still to visit. *)
  Fixpoint for_bins (m : memory hist) (l r : place) (valid : bool) (ixs : list nat) : outcome (memory hist) :=
    if negb valid then UB "iterator of a modified vector"
    else match ixs with
    | [] => Ok m
    | i :: t =>
        match nth_error (h_bins (get m r)) i with
        | None => UB "end of the vector"
        | Some item =>
            olet bins := update_bins (h_bins (get m l)) (bvalue item) (bweight item) in
            let inserted := negb (length bins =? length (h_bins (get m l)))%nat in
            for_bins (set m l (set_bins (get m l) bins)) l r (negb (same_place l r && inserted)) t
        end
    end.
  (** streaming_histogram.hpp:164-176. *)
  Definition hist_iadd (m : memory hist) (l r : place) : outcome (memory hist) :=
    let m := set m l (set_hcount (get m l) (h_count (get m l) + h_count (get m r))) in
    let m := if Qltb (h_min (get m r)) (h_min (get m l)) then set m l (set_hmin (get m l) (h_min (get m r))) else m in
    let m := if Qltb (h_max (get m l)) (h_max (get m r)) then set m l (set_hmax (get m l) (h_max (get m r))) else m in
    olet m := for_bins m l r true (seq 0 (length (h_bins (get m r)))) in
    olet h := trim lg (get m l) in
    Ok (set m l h).
  (** streaming_histogram.hpp:142 (the wrapper). *)
  Fixpoint harray_iadd (m : memory hist) (l r : nat) (cs : list (Z * Z)) : outcome (memory hist) :=
    match cs with
    | [] => Ok m
    | (i, j) :: t => olet m := hist_iadd m (l, i, j) (r, i, j) in harray_iadd m l r t
    end.
  (** histogram2d.hpp:206-221. *)
  Definition hcell_iadd (m : memory hist) (l r : place) : outcome (memory hist) :=
    if (zlen (h_bins (get m l)) =? 0) && negb (zlen (h_bins (get m r)) =? 0) then Ok (set m l (get m r))
    else if negb (zlen (h_bins (get m l)) =? 0) && negb (zlen (h_bins (get m r)) =? 0) then hist_iadd m l r
    else Ok m.
  Fixpoint hist2_iadd (m : memory hist) (l r : nat) (cs : list (Z * Z)) : outcome (memory hist) :=
    match cs with
    | [] => Ok m
    | (i, j) :: t => olet m := hcell_iadd m (l, i, j) (r, i, j) in hist2_iadd m l r t
    end.
End Histograms.
