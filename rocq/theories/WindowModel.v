(** Model of the window functions: include/pyinterp/detail/math/window_functions.hpp and the checks
    of src/pyinterp/interface.py:130-170.

    Simplifications: exact real arithmetic instead of doubles. A weight is [None] when the C++
    expression is not a finite number (division by zero). *)
From Coq Require Export Reals Lra.
From Verif Require Import Base.
Open Scope R_scope.

(** :18-29, enum Function. *)
Inductive window : Type :=
  Blackman | BlackmanHarris | Boxcar | FlatTop | Gaussian | Hamming | Lanczos | Nuttall | Parzen | ParzenSWOT.

Definition Reqb (x y : R) : bool := if Req_EM_T x y then true else false.
Definition Rleb (x y : R) : bool := if Rle_dec x y then true else false.
Definition Rltb (x y : R) : bool := if Rlt_dec x y then true else false.

(** A division: not a finite number when the divisor is zero. *)
Definition rdiv (x y : R) : option R := if Reqb y 0 then None else Some (x / y).
Definition rbind {A B} (x : option A) (f : A -> option B) : option B := match x with Some v => f v | None => None end.

(** math.hpp:263-267. *)
Definition sinc (x : R) : R := if Reqb x 0 then 1 else sin (PI * x) / (PI * x).

(** :33-39. *)
Definition hamming (d r : R) : option R :=
  if Rleb d r then rbind (rdiv (PI * (d + r)) r) (fun a => Some (53836 / 100000 - 46164 / 100000 * cos a)) else Some 0.
(** :42-52. *)
Definition blackman (d r : R) : option R :=
  if Rleb d r then rbind (rdiv (d + r) r) (fun ratio =>
    Some (7938 / 18608 - 9240 / 18608 * cos (PI * ratio) + 1430 / 18608 * cos (2 * PI * ratio))) else Some 0.
(** :55-66. *)
Definition flat_top (d r : R) : option R :=
  if Rleb d r then rbind (rdiv (d + r) r) (fun ratio =>
    Some (21557895 / 100000000 - 41663158 / 100000000 * cos (PI * ratio) + 277263158 / 1000000000 * cos (2 * PI * ratio)
          - 83578947 / 1000000000 * cos (3 * PI * ratio) + 6947368 / 1000000000 * cos (4 * PI * ratio))) else Some 0.
(** :69-78. *)
Definition nuttall (d r : R) : option R :=
  if Rleb d r then rbind (rdiv (d + r) r) (fun ratio =>
    Some (3635819 / 10000000 - 4891775 / 10000000 * cos (PI * ratio) + 1365995 / 10000000 * cos (2 * PI * ratio))) else Some 0.
(** :81-92. *)
Definition blackman_harris (d r : R) : option R :=
  if Rleb d r then rbind (rdiv (d + r) r) (fun ratio =>
    Some (35875 / 100000 - 48829 / 100000 * cos (PI * ratio) + 14128 / 100000 * cos (2 * PI * ratio)
          - 1168 / 100000 * cos (3 * PI * ratio))) else Some 0.
(** :95-101. *)
Definition lanczos (d r nlobes : R) : option R :=
  if Rleb d (nlobes * r) then rbind (rdiv d r) (fun a => rbind (rdiv d (r * nlobes)) (fun b => Some (sinc a * sinc b))) else Some 0.
(** :104-110; [exp (-inf)] is 0 when sigma is null and [d] is not. *)
Definition gaussian (d r sigma : R) : option R :=
  if Rleb d r then
    if Reqb sigma 0 then (if Reqb d 0 then None else Some 0)
    else Some (exp (- (1 / 2) * (d / sigma) ^ 2))
  else Some 0.
(** :113-124. *)
Definition parzen (d r sampling : R) : option R :=
  rbind (rdiv d r) (fun ratio =>
    let l := 2 * r + sampling in
    if Rleb d (l / 4) then Some (1 - 6 * ratio ^ 2 * (1 - ratio))
    else if Rleb (l / 2) d || Rltb (l / 4) d then Some (2 * (1 - ratio) ^ 3)
    else Some 0).
(** :127-138. *)
Definition parzen_swot (d r : R) : option R :=
  let l := 2 * r in
  rbind (rdiv (2 * d) l) (fun ratio =>
    if Rleb d (l / 4) then Some (1 - 6 * ratio ^ 2 + 6 * ratio ^ 3)
    else if Rleb d (l / 2) || Rltb (l / 4) d then Some (2 * (1 - ratio) ^ 3)
    else Some 0).
(** :141-147. *)
Definition boxcar (d r : R) : option R := if Rleb d r then Some 1 else Some 0.

(** :160-217, class WindowFunction: constructor and call operator. *)
Definition weight (w : window) (d r arg : R) : option R :=
  match w with
  | Blackman => blackman d r
  | BlackmanHarris => blackman_harris d r
  | Boxcar => boxcar d r
  | FlatTop => flat_top d r
  | Gaussian => gaussian d r arg
  | Hamming => hamming d r
  | Lanczos => lanczos d r arg
  | Nuttall => nuttall d r
  | Parzen => parzen d r arg
  | ParzenSWOT => parzen_swot d r
  end.

(** src/pyinterp/interface.py:148-166: the checks on the optional argument. *)
Definition check_arg (w : window) (arg : option R) : bool :=
  match w with
  | Lanczos => let a := match arg with Some a => a | None => 1 end in negb (Rltb a 1)
  | Parzen => let a := match arg with Some a => a | None => 0 end in negb (Rltb a 0)
  | Gaussian => match arg with Some _ => true | None => false end
  | _ => match arg with Some _ => false | None => true end
  end.
(** include/pyinterp/rtree.hpp:314,322 [arg.value_or(0)]. *)
Definition arg_value (arg : option R) : R := match arg with Some a => a | None => 0 end.
(** The weights obtained through the Python interface (src/pyinterp/rtree.py:382-384): the argument
    completed by [interface.py] is only checked, the one given by the caller is transmitted. *)
Definition python_weight (w : window) (arg : option R) : outcome (R -> R -> option R) :=
  if check_arg w arg then Ok (fun d r => weight w d r (arg_value arg)) else Throw "ValueError".
