(** Model of the choice of the class of a grid from the type of its array, and of the functions of
    the library that accept it: src/pyinterp/interface.py:16-93 ("interface:"), src/pyinterp/grid.py:64-86
    ("grid:"), core/module/{grid,bivariate,trivariate,quadrivariate,bicubic,fill}.cpp,
    include/pyinterp/grid.hpp:22-34, 245-462.

    Simplifications: an array is the list of its elements (the shape plays no part); a real is a rational
    or NaN.  The conversion of the array to [pybind11::array_t<T>] (flag forcecast) is modelled from the
    documentation of numpy: an array of the type T in the byte order of the machine is shared, any other
    is copied with its elements rounded to the nearest, ties to even. *)
From Coq Require Import Ascii.
From Verif Require Import Base NamesModel.
Local Open Scope string_scope.
Local Open Scope Z_scope.

(** The types of numpy; [OtherType]: bool, float16, longdouble, complex, longlong, datetime64, object... *)
Inductive dtype : Type := F64 | F32 | I64 | U64 | I32 | U32 | I16 | U16 | I8 | U8 | OtherType.
Definition dtype_eqb (a b : dtype) : bool :=
  match a, b with
  | F64, F64 | F32, F32 | I64, I64 | U64, U64 | I32, I32 | U32, U32 | I16, I16 | U16, U16 | I8, I8 | U8, U8 | OtherType, OtherType => true
  | _, _ => false
  end.
(** interface:29-62. *)
Definition core_class_suffix (t : dtype) (handle_integer : bool) : outcome string :=
  match t with
  | F64 => Ok "Float64"
  | F32 => Ok "Float32"
  | I64 => Ok "Float64"
  | U64 => Ok "Float64"
  | I32 => Ok "Float32"
  | U32 => Ok "Float32"
  | I16 => Ok "Float32"
  | U16 => Ok "Float32"
  | I8 => Ok (if negb handle_integer then "Float32" else "Int8")
  | U8 => Ok (if negb handle_integer then "Float32" else "UInt8")
  | OtherType => Throw "ValueError"
  end.

(** The classes of grids: module/grid.cpp:11-15, grid.hpp:248-462. *)
Record gclass : Type := GClass { c_time : bool; c_dims : Z; c_type : dtype }.
Definition suffixes : list (string * dtype) := [("Float64", F64); ("Float32", F32); ("Int8", I8); ("UInt8", U8)].
Definition digit (n : Z) : string := String (ascii_of_nat (Z.to_nat (48 + n))) "".
Definition grid_classes : list (string * gclass) :=
  flat_map (fun s : string * dtype =>
    let '(suffix, t) := s in
    ("Grid2D" ++ suffix, GClass false 2 t)
    :: flat_map (fun prefix : string * bool => [(fst prefix ++ "Grid3D" ++ suffix, GClass (snd prefix) 3 t); (fst prefix ++ "Grid4D" ++ suffix, GClass (snd prefix) 4 t)])
         [("", false); ("Temporal", true)]) suffixes.
(** grid:65-70, 85: [temporal]: one of the axes is a TemporalAxis.  [getattr(core, name)]. *)
Definition grid_class (dims : Z) (temporal : bool) (t : dtype) : outcome gclass :=
  olet suffix := core_class_suffix t true in
  lookup grid_classes ((if temporal then "Temporal" else "") ++ "Grid" ++ digit dims ++ "D" ++ suffix).

(** ** Rounding of an integer to [p] bits, to the nearest, ties to even *)
Definition round_bits (p n : Z) : Z :=
  let s := Z.log2 (Z.abs n) + 1 - p in
  if s <=? 0 then n
  else
    let m := 2 ^ s in
    let q := n / m in let r := n mod m in
    if 2 * r <? m then q * m else if m <? 2 * r then (q + 1) * m else if Z.even q then q * m else (q + 1) * m.

Inductive contents : Type := Ints (l : list Z) | Reals (l : list (option Q)).
(** The elements converted to the type of the class. *)
Definition converted (t : dtype) (c : contents) : contents :=
  match c with
  | Reals l => Reals l
  | Ints l =>
      match t with
      | F64 => Reals (map (fun n => Some (inject_Z (round_bits 53 n))) l)
      | F32 => Reals (map (fun n => Some (inject_Z (round_bits 24 n))) l)
      | _ => Ints l
      end
  end.

(** ** The memory: buffers of the arrays of numpy *)
Record buffer : Type := Buffer { b_type : dtype; b_native : bool; b_data : contents }.
Definition memory : Type := list buffer.
Definition write (m : memory) (a : nat) (c : contents) : memory :=
  match nth_error m a with Some b => set_nth a (Buffer (b_type b) (b_native b) c) m | None => m end.
Record grid : Type := PyGrid { g_class : gclass; g_array : nat }.
(** grid:64-86, grid.hpp:25-34 (without the tests of the shape). *)
Definition new_grid (m : memory) (dims : Z) (temporal : bool) (a : nat) : outcome (memory * grid) :=
  match nth_error m a with
  | None => UB "no such array"
  | Some b =>
      olet c := grid_class dims temporal (b_type b) in
      if (dtype_eqb (b_type b) (c_type c) && b_native b)%bool then Ok (m, PyGrid c a)
      else Ok ((m ++ [Buffer (c_type c) true (converted (c_type c) (b_data b))])%list, PyGrid c (length m))
  end.
(** [Grid.array]. *)
Definition grid_array (m : memory) (g : grid) : option contents := option_map b_data (nth_error m (g_array g)).

(** ** The functions of the library *)
(** interface:16-17, 87-93: [re.search(r'((?:Float|Int|UInt)\d+)', name).group(1).lower()]. *)
Definition is_digit (c : ascii) : bool := let n := nat_of_ascii c in ((48 <=? n) && (n <=? 57))%nat.
Fixpoint digits (s : string) : string :=
  match s with String c t => if is_digit c then String c (digits t) else "" | EmptyString => "" end.
Fixpoint after_prefix (p s : string) : option string :=
  match p, s with
  | EmptyString, _ => Some s
  | String a p, String b s => if Ascii.eqb a b then after_prefix p s else None
  | String _ _, EmptyString => None
  end.
Definition match_here (word s : string) : option string :=
  match after_prefix word s with
  | Some rest => let d := digits rest in if String.eqb d "" then None else Some (word ++ d)
  | None => None
  end.
Fixpoint pattern_search (s : string) : option string :=
  match match_here "Float" s with
  | Some r => Some r
  | None => match match_here "Int" s with
  | Some r => Some r
  | None => match match_here "UInt" s with
  | Some r => Some r
  | None => match s with String _ t => pattern_search t | EmptyString => None end
  end end end.
Fixpoint lowered (s : string) : string := match s with String c t => String (lower c) (lowered t) | EmptyString => "" end.
(** interface:74-86: the classes accepted by [_core_function]. *)
Definition accepted_classes : list string :=
  ["Grid2DFloat64"; "Grid2DFloat32"; "Grid2DInt8"; "Grid2DUInt8"; "Grid3DFloat64"; "Grid3DFloat32"; "Grid4DFloat64"; "Grid4DFloat32";
   "TemporalGrid3DFloat64"; "TemporalGrid3DFloat32"; "TemporalGrid4DFloat64"; "TemporalGrid4DFloat32"].
Definition core_function (function : string) (class_name : string) : outcome string :=
  if in_names class_name accepted_classes then
    match pattern_search class_name with Some s => Ok (function ++ "_" ++ lowered s) | None => UB "assert" end
  else Throw "TypeError".

(** The names given to the functions: the first letter in lower case (bicubic.cpp:247-250, 287-291,
    337-341, fill.cpp:27-28, 113-114, trivariate.hpp:146-147, quadrivariate.hpp:191-192), and the second
    when it is an I (bivariate.hpp:219-223). *)
Definition lower_first (s : string) : string := match s with String c t => String (lower c) t | EmptyString => "" end.
Definition lower_two (s : string) : string :=
  match lower_first s with
  | String c (String "I" t) => String c (String (lower "I") t)
  | s => s
  end.
(** The functions registered, with the class of grid of their first argument: bivariate.cpp:12-21,
    trivariate.cpp, quadrivariate.cpp, bicubic.cpp:384-445, fill.cpp:149-163.  [gauss_seidel] takes the
    array of the grid: a matrix of the type of the function (fill.py:125-137). *)
Definition floats : list (string * dtype) := [("Float64", F64); ("Float32", F32)].
Definition registered : list (string * gclass) :=
  app (map (fun s => ("bivariate_" ++ lower_two (fst s), GClass false 2 (snd s)))
     [("Float64", F64); ("Float32", F32); ("Int8", I8); ("UInt8", U8)])
   (flat_map (fun s =>
        let f := lower_first (fst s) in let t := snd s in
        [("trivariate_" ++ f, GClass false 3 t); ("trivariate_" ++ f, GClass true 3 t);
         ("quadrivariate_" ++ f, GClass false 4 t); ("quadrivariate_" ++ f, GClass true 4 t);
         ("bicubic_" ++ f, GClass false 2 t); ("bicubic_" ++ f, GClass false 3 t); ("bicubic_" ++ f, GClass true 3 t);
         ("bicubic_" ++ f, GClass false 4 t); ("bicubic_" ++ f, GClass true 4 t);
         ("spline_" ++ f, GClass false 2 t); ("spline_" ++ f, GClass false 3 t); ("spline_" ++ f, GClass true 3 t);
         ("spline_" ++ f, GClass false 4 t); ("spline_" ++ f, GClass true 4 t);
         ("loess_" ++ f, GClass false 2 t); ("loess_" ++ f, GClass false 3 t); ("loess_" ++ f, GClass true 3 t);
         ("loess_" ++ f, GClass false 4 t); ("loess_" ++ f, GClass true 4 t)]) floats).
Definition gclass_eqb (a b : gclass) : bool :=
  (Bool.eqb (c_time a) (c_time b) && (c_dims a =? c_dims b) && dtype_eqb (c_type a) (c_type b))%bool.
(** [getattr(core, name)(grid, ...)]: pybind11 takes the first overload whose arguments have the right
    types. *)
Definition call (name : string) (g : gclass) : outcome gclass :=
  match filter (fun e => String.eqb (fst e) name) registered with
  | [] => Throw "AttributeError"
  | overloads =>
      match find (fun e => gclass_eqb (snd e) g) overloads with Some e => Ok (snd e) | None => Throw "TypeError" end
  end.
Definition class_name (g : gclass) : string :=
  (if c_time g then "Temporal" else "") ++ "Grid" ++ digit (c_dims g) ++ "D"
  ++ match c_type g with F64 => "Float64" | F32 => "Float32" | I8 => "Int8" | U8 => "UInt8" | _ => "" end.
Inductive operation : Type := Bivariate | Trivariate | Quadrivariate | Bicubic | Spline | Loess.
Definition operation_name (o : operation) : string :=
  match o with Bivariate => "bivariate" | Trivariate => "trivariate" | Quadrivariate => "quadrivariate" | Bicubic => "bicubic" | Spline => "spline" | Loess => "loess" end.
(** The kernel (its class of grids) that runs when the operation is applied to the grid. *)
Definition run_on (o : operation) (g : gclass) : outcome gclass :=
  olet name := core_function (operation_name o) (class_name g) in call name g.
