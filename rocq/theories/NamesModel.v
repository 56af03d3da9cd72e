(** Model of the choice of the covariance, radial basis and window functions by their names
    (src/pyinterp/interface.py:96-172, below "interface:") and of the names of the members of the
    enumerations (src/pyinterp/core/module/enum.cpp, "enum:").

    [x or default] is the default for [None] and for the empty string. *)
From Coq Require Import Ascii.
From Verif Require Import Base WindowModel RbfModel.

Definition str_or (name : option string) (default : string) : string :=
  match name with
  | Some n => if String.eqb n "" then default else n
  | None => default
  end.

(** ASCII case conversions ([str.capitalize] on the names of the lists below). *)
Definition upper (c : ascii) : ascii :=
  let n := nat_of_ascii c in if ((97 <=? n) && (n <=? 122))%nat then ascii_of_nat (n - 32) else c.
Definition lower (c : ascii) : ascii :=
  let n := nat_of_ascii c in if ((65 <=? n) && (n <=? 90))%nat then ascii_of_nat (n + 32) else c.
(** [sep.join(item.capitalize() for item in s.split('_'))]. *)
Fixpoint capitalized (sep : string) (first : bool) (s : string) : string :=
  match s with
  | EmptyString => EmptyString
  | String c t =>
      if Ascii.eqb c "_"%char then (sep ++ capitalized sep true t)%string
      else String (if first then upper c else lower c) (capitalized sep false t)
  end.

Definition in_names (n : string) (l : list string) : bool := existsb (String.eqb n) l.
(** [getattr(core.X, name)]: the members of an enumeration. *)
Fixpoint lookup {A : Type} (table : list (string * A)) (name : string) : outcome A :=
  match table with
  | [] => Throw "AttributeError"
  | (n, a) :: t => if String.eqb n name then Ok a else lookup t name
  end.

(** enum:54-73. *)
Definition covariance_members : list (string * covariance) :=
  [("Matern_12", Matern12); ("Matern_32", Matern32); ("Matern_52", Matern52);
   ("WhittleMatern", WhittleMatern); ("Cauchy", Cauchy); ("Exponential", Exponential);
   ("Gaussian", CGaussian); ("Spherical", Spherical); ("Linear", CLinear)]%string.
(** enum:25-33. *)
Definition radial_members : list (string * radial) :=
  [("Cubic", Cubic); ("Gaussian", RGaussian); ("InverseMultiquadric", InverseMultiquadric);
   ("Linear", RLinear); ("Multiquadric", Multiquadric); ("ThinPlate", ThinPlate)]%string.
(** enum:35-45. *)
Definition window_members : list (string * window) :=
  [("Blackman", Blackman); ("BlackmanHarris", BlackmanHarris); ("Boxcar", Boxcar);
   ("FlatTop", FlatTop); ("Gaussian", Gaussian); ("Hamming", Hamming); ("Lanczos", Lanczos);
   ("Nuttall", Nuttall); ("Parzen", Parzen); ("ParzenSWOT", ParzenSWOT)]%string.

(** interface:96-111. *)
Definition covariance_by_name (name : option string) : outcome covariance :=
  let covariance := str_or name "matern_32" in
  if negb (in_names covariance
             ["exponential"; "gaussian"; "linear"; "matern_12"; "matern_32"; "matern_52";
              "spherical"; "whittle_matern"]%string)
  then Throw "ValueError"
  else lookup covariance_members (capitalized "_" true covariance).

(** interface:114-128; [epsilon] tells whether the parameter is given. *)
Definition radial_by_name (name : option string) (epsilon : bool) : outcome radial :=
  let adjustable := ["gaussian"; "inverse_multiquadric"; "multiquadric"]%string in
  let non_adjustable := ["cubic"; "linear"; "thin_plate"]%string in
  let rbf := str_or name "multiquadric" in
  if epsilon && in_names rbf non_adjustable then Throw "ValueError"
  else if negb (in_names rbf (adjustable ++ non_adjustable)) then Throw "ValueError"
  else lookup radial_members (capitalized "" true rbf).

(** [s.replace('Swot', 'SWOT')]. *)
Fixpoint replace_swot (s : string) : string :=
  match s with
  | EmptyString => EmptyString
  | String c t =>
      if String.prefix "Swot" s then ("SWOT" ++ substring 4 (String.length s - 4) s)%string
      else String c (replace_swot t)
  end.
(** interface:130-146 and :170-172; the checks of the argument are in [WindowModel]. *)
Definition window_by_name (name : option string) : outcome window :=
  let wf := str_or name "blackman" in
  if negb (in_names wf
             ["blackman"; "blackman_harris"; "boxcar"; "flat_top"; "gaussian"; "hamming";
              "lanczos"; "nuttall"; "parzen"; "parzen_swot"]%string)
  then Throw "ValueError"
  else lookup window_members (replace_swot (capitalized "" true wf)).
