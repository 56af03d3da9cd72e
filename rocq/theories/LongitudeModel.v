(** Model of [pyinterp.geodetic.normalize_longitudes] (src/pyinterp/geodetic/__init__.py:139-155) and of
    the two functions of the same name of the library (module/geodetic.cpp:1815-1852).

    An array of numpy with one dimension is a view of a buffer: its first element, the number of elements
    between two successive ones (a stride of numpy divided by the size of an element) and its size.  A
    buffer holds numbers, [None] being NaN.  Coordinates are rationals.  pybind11, from its documentation:
    the overloads are tried in order, first without and then with conversion of the arguments; a
    [Ref<VectorXd>] that is not const only accepts arrays of float64 that can be written and whose elements
    are contiguous, whether conversions are allowed or not; a const one accepts in addition any array of
    numbers, through a copy, when conversions are allowed. *)
From Verif Require Import Base MathModel.
Open Scope Z_scope.

(** float64, or another type of numbers. *)
Inductive ltype : Type := LF64 | LOther.
Record larray : Type := LArray {
  l_type : ltype; l_buffer : nat; l_first : nat; l_step : Z; l_size : nat; l_writeable : bool }.
Definition lmemory : Type := list (list (option Q)).

Definition address (a : larray) (i : nat) : nat := Z.to_nat (Z.of_nat (l_first a) + l_step a * Z.of_nat i).
Definition buffer (m : lmemory) (b : nat) : list (option Q) := nth b m [].
Definition read (m : lmemory) (a : larray) (i : nat) : option (option Q) := nth_error (buffer m (l_buffer a)) (address a i).

(** Eigen::Ref<VectorXd> has an inner stride of 1 (irrelevant for one element; a negative one is refused). *)
Definition contiguous (a : larray) : bool := (l_step a =? 1) || (Nat.eqb (l_size a) 1 && (0 <=? l_step a)).
Definition is_f64 (a : larray) : bool := match l_type a with LF64 => true | LOther => false end.

Definition norm (min_lon : Q) (x : option Q) : option Q := option_map (fun x => normalize_angle x min_lon 360) x.

(** geodetic.cpp:1817-1822: [std::for_each(lon_ptr, lon_ptr + lon.size(), ...)]. *)
Fixpoint norm_from (min_lon : Q) (l : list (option Q)) (p : nat) (n : nat) : list (option Q) :=
  match n with
  | O => l
  | S n' => norm_from min_lon (match nth_error l p with Some x => set_nth p (norm min_lon x) l | None => l end) (S p) n'
  end.
Definition core_in_place (m : lmemory) (a : larray) (min_lon : Q) : lmemory :=
  set_nth (l_buffer a) (norm_from min_lon (buffer m (l_buffer a)) (l_first a) (l_size a)) m.
(** geodetic.cpp:1833-1839: the elements of the argument (or of its copy as float64). *)
Definition elements (m : lmemory) (a : larray) : list (option Q) :=
  map (fun i => match read m a i with Some x => x | None => None end) (seq 0 (l_size a)).
Definition core_copy (m : lmemory) (a : larray) (min_lon : Q) : lmemory * larray :=
  (m ++ [map (norm min_lon) (elements m a)], LArray LF64 (length m) 0 1 (l_size a) true).

(** The choice of the overload; [None] is the answer of the first one. *)
Definition core_normalize (m : lmemory) (a : larray) (min_lon : Q) : lmemory * option larray :=
  if is_f64 a && l_writeable a && contiguous a then (core_in_place m a min_lon, None)
  else let '(m, r) := core_copy m a min_lon in (m, Some r).

(** __init__.py:151-155. *)
Definition normalize_longitudes (m : lmemory) (a : larray) (min_lon : Q) : lmemory * option larray :=
  if l_writeable a
  then let '(m, _) := core_normalize m a min_lon in (m, Some a)
  else core_normalize m a min_lon.
