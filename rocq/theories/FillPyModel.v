(** Model of the Python functions of src/pyinterp/fill.py ("fill.py:"): matrix, vector and the choice of
    the parameters and the slices of gauss_seidel.

    The functions of the library called are parameters for [matrix] and [vector] (their effect on the data
    is that of FillModel) and RelaxModel.gauss_seidel for the relaxation.  An array of numpy is a buffer
    with its type, its number of dimensions and two flags; its data have any type [D].  pybind11 (from its
    documentation): an argument [Eigen::Ref] that is not const accepts only an array of the same type that
    can be written, without conversion; a [Ref<Vector>] also needs contiguous elements, [EigenDRef] does
    not. *)
From Coq Require Import Reals.
From Verif Require Import Base RelaxModel.
Local Open Scope Z_scope.

Inductive ftype : Type := TF32 | TF64 | TI64 | TDate | TOther.
Definition ftype_eqb (a b : ftype) : bool :=
  match a, b with TF32, TF32 | TF64, TF64 | TI64, TI64 | TDate, TDate | TOther, TOther => true | _, _ => false end.
(** A float, an integer, a scalar of numpy (date or duration). *)
Inductive fillvalue : Type := FVFloat (x : option Q) | FVInt (n : Z) | FVDate (n : Z).

Section Arrays.
  Variable D : Type.
  (** [core t v data]: the effect of matrix_float32... or vector_float32... on the data. *)
  Variables core_matrix core_vector : ftype -> fillvalue -> D -> D.
  Record farray : Type := FArray { f_type : ftype; f_dims : Z; f_contiguous : bool; f_writeable : bool; f_data : D }.
  Definition fmemory : Type := list farray.

  (** [const T &fill_value]: a double accepts floats and integers, an int64_t integers only. *)
  Definition accepts_value (t : ftype) (v : fillvalue) : bool :=
    match t, v with
    | TF32, FVFloat _ | TF32, FVInt _ | TF64, FVFloat _ | TF64, FVInt _ => true
    | TI64, FVInt _ => true
    | _, _ => false
    end.
  Definition set_data (a : farray) (d : D) : farray := FArray (f_type a) (f_dims a) (f_contiguous a) (f_writeable a) d.
  (** A call of core.fill.X_<t>(x, fill_value). *)
  Definition call_core (core : ftype -> fillvalue -> D -> D) (contiguous : bool) (t : ftype) (v : fillvalue) (m : fmemory) (a : nat) : fmemory * outcome unit :=
    match nth_error m a with
    | None => (m, UB "no such array")
    | Some x =>
        if (ftype_eqb (f_type x) t && f_writeable x && (negb contiguous || f_contiguous x) && accepts_value t v)%bool
        then (set_nth a (set_data x (core t v (f_data x))) m, Ok tt)
        else (m, Throw "TypeError")
    end.
  (** [numpy.copy]. *)
  Definition np_copy (m : fmemory) (x : farray) : fmemory * nat :=
    (m ++ [FArray (f_type x) (f_dims x) true true (f_data x)], length m).
  Definition then_ (r : fmemory * outcome unit) (k : fmemory -> fmemory * outcome nat) : fmemory * outcome nat :=
    match r with (m, Ok _) => k m | (m, Throw w) => (m, Throw w) | (m, UB w) => (m, UB w) end.

  (** fill.py:148-170. *)
  Definition py_matrix (m : fmemory) (a : nat) (v : fillvalue) (in_place : bool) : fmemory * outcome nat :=
    match nth_error m a with
    | None => (m, UB "no such array")
    | Some x =>
        if negb (f_dims x =? 2) then (m, Throw "ValueError")
        else
          let '(m, a) := if in_place then (m, a) else np_copy m x in
          then_ (if ftype_eqb (f_type x) TF32 then call_core core_matrix false TF32 v m a else (m, Ok tt)) (fun m =>
          then_ (call_core core_matrix false TF64 v m a) (fun m => (m, Ok a)))
    end.
  (** fill.py:173-206; [x.view(numpy.int64)] and [fill_value.view(numpy.int64)] look at the same memory
      as integers: a Python float or integer has no [view]. *)
  Definition as_view (v : fillvalue) : outcome fillvalue :=
    match v with FVDate n => Ok (FVInt n) | _ => Throw "AttributeError" end.
  Definition call_dates (v : fillvalue) (m : fmemory) (a : nat) : fmemory * outcome unit :=
    match nth_error m a with
    | None => (m, UB "no such array")
    | Some x =>
        match as_view v with
        | Ok w =>
            if (f_writeable x && f_contiguous x)%bool then (set_nth a (set_data x (core_vector TI64 w (f_data x))) m, Ok tt)
            else (m, Throw "TypeError")
        | Throw w => (m, Throw w)
        | UB w => (m, UB w)
        end
    end.
  Definition py_vector (m : fmemory) (a : nat) (v : fillvalue) (in_place : bool) : fmemory * outcome nat :=
    match nth_error m a with
    | None => (m, UB "no such array")
    | Some x =>
        if negb (f_dims x =? 1) then (m, Throw "ValueError")
        else
          let '(m, a) := if in_place then (m, a) else np_copy m x in
          then_ (match f_type x with
                 | TF32 => call_core core_vector true TF32 v m a
                 | TF64 => call_core core_vector true TF64 v m a
                 | TI64 => call_core core_vector true TI64 v m a
                 | TDate => call_dates v m a
                 | TOther => (m, Throw "ValueError")
                 end) (fun m => (m, Ok a))
    end.
End Arrays.
Arguments FArray {D}. Arguments f_type {D}. Arguments f_dims {D}. Arguments f_contiguous {D}. Arguments f_writeable {D}. Arguments f_data {D}.

(** ** gauss_seidel (fill.py:55-145) *)
(** fill.py:107-113: the default relaxation, over the reals. *)
Definition default_relaxation (nx ny : nat) : R :=
  let n := if Nat.eqb nx ny then INR nx else (INR nx * INR ny * sqrt (2 / (INR nx ^ 2 + INR ny ^ 2)))%R in
  (2 / (1 + PI / n))%R.
(** fill.py:115-116. *)
Definition iterations (max_iteration : option nat) (nx ny : nat) : nat :=
  match max_iteration with Some n => n | None => (nx * ny)%nat end.
(** fill.py:125-130, 145: a grid of two dimensions. *)
Definition py_gauss_seidel2 (nx ny : nat) (fg : first_guess) (circle : bool) (max_iteration : option nat) (epsilon relax : Q) (first : nat)
    (g : cell -> option Q) : outcome (bool * (cell -> option Q)) :=
  olet (filled, _, residual) := gauss_seidel nx ny fg circle (iterations max_iteration nx ny) epsilon relax first g in
  Ok (Qle_bool residual epsilon, filled).
(** fill.py:131-145: one task for each slice, [order] is the order in which the tasks end
    ([concurrent.futures.as_completed]).  [max] of Python keeps the first of equal values; [future.result()]
    throws the exception of the task. *)
Fixpoint py_max (m : Q) (l : list Q) : Q := match l with [] => m | a :: t => py_max (if Qltb m a then a else m) t end.
Fixpoint collect (task : nat -> outcome ((cell -> option Q) * nat * Q)) (order : list nat) : outcome (list Q) :=
  match order with
  | [] => Ok []
  | iz :: t => olet (_, _, r) := task iz in olet rest := collect task t in Ok (r :: rest)
  end.
Definition py_gauss_seidel3 (nx ny nz : nat) (fg : first_guess) (circle : bool) (max_iteration : option nat) (epsilon relax : Q) (first : nat)
    (g : nat -> cell -> option Q) (order : list nat) : outcome (bool * (nat -> cell -> option Q)) :=
  let task iz := gauss_seidel nx ny fg circle (iterations max_iteration nx ny) epsilon relax first (g iz) in
  olet residuals := collect task order in
  match residuals with
  | [] => Throw "ValueError"
  | r :: rest =>
      Ok (Qle_bool (py_max r rest) epsilon,
          fun iz => if (iz <? nz)%nat then match task iz with Ok (filled, _, _) => filled | _ => g iz end else g iz)
  end.
