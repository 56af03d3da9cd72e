(** Model of the computations on dask arrays: [push_delayed] of src/pyinterp/binning.py and
    src/pyinterp/histogram2d.py, [_delayed] of src/pyinterp/statistics/descriptive_descriptive.py and
    src/pyinterp/statistics/streaming_histogram.py.

    dask is not modelled beyond what these functions rely on: [map_blocks] calls the function once per
    chunk, in the order of the chunks (for a chunked array of several dimensions whose dimensions other
    than the first are dropped: once per slab of rows, the other dimensions being concatenated), and
    [.sum()] adds the objects with [+], two by two, without changing their order: the shape of the tree of
    additions and the order in which its independent nodes are executed are arbitrary. *)
From Verif Require Import Base AxisModel StatsModel StatsSpec HistModel BinningModel Hist2dModel.
Open Scope Z_scope.

(** ** The tree of additions *)
(** References to objects, and the additions that remain to be done. *)
Inductive work : Type := Ref (i : nat) | Sum (p q : work).

(** The operator [+] of the classes bound by pybind11 (module/descriptive_statistics.cpp:123-133,
    module/streaming_histogram.cpp:137-147): the result is a new object. *)
Definition core_add {I : Type} (iadd : I -> I -> outcome I) (h : list I) (self other : nat) : outcome (list I * nat) :=
  match nth_error h self, nth_error h other with
  | Some a, Some b => olet r := iadd a b in Ok (h ++ [r], length h)
  | _, _ => UB "dangling reference"
  end.

Section Execution.
  Context {I : Type}.
  (** [a + b] on objects of the heap: [py_add] (BinningModel.v) or [core_add]. *)
  Variable add : list I -> nat -> nat -> outcome (list I * nat).
  (** One addition, anywhere in the tree where both operands are known. *)
  Inductive step : list I * work -> list I * work -> Prop :=
  | step_add h i j h' k : add h i j = Ok (h', k) -> step (h, Sum (Ref i) (Ref j)) (h', Ref k)
  | step_left h p q h' p' : step (h, p) (h', p') -> step (h, Sum p q) (h', Sum p' q)
  | step_right h p q h' q' : step (h, q) (h', q') -> step (h, Sum p q) (h', Sum p q').
  Inductive runs : nat -> list I * work -> list I * work -> Prop :=
  | runs_none s : runs 0 s s
  | runs_more n s t u : step s t -> runs n t u -> runs (S n) s u.
End Execution.

(** [map_blocks]: one object per chunk. *)
Fixpoint map_blocks {A B : Type} (f : A -> outcome B) (l : list A) : outcome (list B) :=
  match l with
  | [] => Ok []
  | a :: t => olet b := f a in olet r := map_blocks f t in Ok (b :: r)
  end.

(** ** Binning2D, Binning1D and Histogram2D *)
Inductive dtype : Type := Float64 | Float32.
Definition same_dtype (a b : dtype) : bool := match a, b with Float64, Float64 | Float32, Float32 => true | _, _ => false end.
(** The Python object: the type of the C++ instance and the instance (binning.py:50-63, :245-260,
    histogram2d.py:65-79). *)
Record py_object (I : Type) : Type := PyObject { o_dtype : dtype; o_instance : I }.
Arguments PyObject {I}. Arguments o_dtype {I}. Arguments o_instance {I}.
(** binning.py:93-99, :284-290; histogram2d.py:104-110: the types are compared, then the instances merged. *)
Definition typed_iadd {I : Type} (iadd : I -> I -> outcome I) (a b : py_object I) : outcome (py_object I) :=
  if negb (same_dtype (o_dtype a) (o_dtype b)) then Throw "instance must be of the same type"
  else olet r := iadd (o_instance a) (o_instance b) in Ok (PyObject (o_dtype a) r).

Section Delayed.
  Variables (geo : spheroid -> list point -> Q) (lg : Q -> Q).
  (** binning.py:179-182 [_process_block]: the axes and the spheroid of the instance; [dtype] is not passed. *)
  Definition block2 (self : py_object binning) (simple : bool) (c : list Q * list Q * list (option Q)) : outcome (py_object binning) :=
    let '(x, y, z) := c in
    let b := new_binning (b_x (o_instance self)) (b_y (o_instance self)) (b_wgs (o_instance self)) in
    olet b := push geo b x y z simple in
    Ok (PyObject Float64 b).
  (** binning.py:184-192, the objects given to [.sum()]. *)
  Definition push_delayed2 (self : py_object binning) (simple : bool) (chunks : list (list Q * list Q * list (option Q))) : outcome (list (py_object binning)) :=
    map_blocks (block2 self simple) chunks.

  (** binning.py:340-343: only the axis is passed. *)
  Definition block1 (self : py_object binning1) (c : list Q * list (option Q) * option (list Q)) : outcome (py_object binning1) :=
    let '(x, z, weights) := c in
    olet b := new_binning1 (b_x (b1_base (o_instance self))) None in
    olet b := push1 b x z weights in
    Ok (PyObject Float64 b).
  (** binning.py:345-350. *)
  Definition push_delayed1 (self : py_object binning1) (chunks : list (list Q * list (option Q) * option (list Q))) : outcome (list (py_object binning1)) :=
    map_blocks (block1 self) chunks.
  (** [+=] of Binning1D is that of Binning2D: the ranges are not compared (binning.hpp:213-247, :347). *)
  Definition iadd1 (a b : binning1) : outcome binning1 :=
    olet r := add_in_place (b1_base a) (b1_base b) in Ok (Binning1 r (b1_min a) (b1_max a)).

  (** histogram2d.py:148-151: the axes and the [dtype]; [bin_counts] is not passed. *)
  Definition block_h (self : py_object hist2) (c : list Q * list Q * list (option Q)) : outcome (py_object hist2) :=
    let '(x, y, z) := c in
    olet g := new_hist2 lg (g_x (o_instance self)) (g_y (o_instance self)) None in
    olet g := push2 lg g x y z in
    Ok (PyObject (o_dtype self) g).
  (** histogram2d.py:153-160. *)
  Definition push_delayed_h (self : py_object hist2) (chunks : list (list Q * list Q * list (option Q))) : outcome (list (py_object hist2)) :=
    map_blocks (block_h self) chunks.

  (** ** DescriptiveStatistics and StreamingHistogram *)
  (** The C++ object: the shape and one accumulator per element (descriptive_statistics.hpp:156-157). *)
  Definition statistics : Type := (list Z * list acc)%type.
  (** descriptive_statistics.hpp:125-132. *)
  Definition stats_iadd (a b : statistics) : outcome statistics :=
    if list_eq_dec Z.eq_dec (fst a) (fst b) then Ok (fst a, merge_cells (snd a) (snd b)) else Throw "incompatible shapes".
  (** descriptive_statistics.hpp:41-71 with [axis = None]: values and, optionally, weights of one block. *)
  Definition stats_flat (values : list (option Q)) (weights : option (list Q)) : outcome statistics :=
    match weights with
    | None => Ok ([1], [push_all values])
    | Some w => if zlen values =? zlen w then Ok ([1], [push_all_weighted (combine values w)]) else Throw "shapes"
    end.
  (** The same with [axis]: the block has [rows] rows of elements of shape [rest]; an array that is not
      C-ordered is copied by pybind11. *)
  Definition stats_axis (rest axes : list Z) (block : Z * list (option Q * Q)) : outcome statistics :=
    let shape := fst block :: rest in
    olet cells := stats_reduce shape (c_strides shape) axes (snd block) in
    Ok (reduced_shape shape axes 0, cells).
  (** descriptive_descriptive.py:29-50 [_delayed]: the objects given to [.sum()]. *)
  Definition delayed_stats (blocks : list (list (option Q) * option (list Q))) : outcome (list statistics) :=
    map_blocks (fun b => stats_flat (fst b) (snd b)) blocks.
  Definition delayed_stats_axis (rest axes : list Z) (blocks : list (Z * list (option Q * Q))) : outcome (list statistics) :=
    map_blocks (stats_axis rest axes) blocks.

  (** streaming_histogram.hpp:220-253 [push]: NaN values are skipped. *)
  Fixpoint stream_push (h : hist) (l : list (option Q * Q)) : outcome hist :=
    match l with
    | [] => Ok h
    | (None, _) :: t => stream_push h t
    | (Some v, w) :: t => olet h := hist_push lg h v w in stream_push h t
    end.
  (** streaming_histogram.hpp:39-62 with [axis = None]; 100 bins by default, weight 1 by default. *)
  Definition stream_flat (bin_count : option Z) (values : list (option Q)) (weights : option (list Q)) : outcome hist :=
    let n := match bin_count with Some n => n | None => 100 end in
    olet h := hist_resize lg hist_new n in
    match weights with
    | None => stream_push h (map (fun v => (v, 1%Q)) values)
    | Some w => if zlen values =? zlen w then stream_push h (combine values w) else Throw "shapes"
    end.
  (** streaming_histogram.py:27-54 [_delayed]. *)
  Definition delayed_stream (bin_count : option Z) (blocks : list (list (option Q) * option (list Q))) : outcome (list hist) :=
    map_blocks (fun b => stream_flat bin_count (fst b) (snd b)) blocks.
End Delayed.
