(** Model of the gap filling functions of include/pyinterp/fill.hpp (lines, matrices and
    window indexes). *)
From Verif Require Import Base MathModel.
Open Scope Z_scope.

Section Line.
  (** The arithmetic of the element type ([double], exact here, or [int64_t]):
      [scale a n] is [a * n] and [divz a n] is [a / n] for an index difference [n]. *)
  Variable T : Type.
  Variables (plus minus : T -> T -> T) (scale divz : T -> Z -> T).

  (** [for (jx = from; jx < to; ++jx) x[jx] = f(jx)]. *)
  Definition assign_range (f : nat -> T) (from to : nat) (x : list T) : list T :=
    fold_left (fun x jx => set_nth jx (f jx) x) (seq from (to - from)) x.

  (** fill.hpp:210-240: state of the first loop. [None] stands for -1. *)
  Record fstate := FState { fx : list T; last_valid : option nat; first_valid : option nat }.

  Definition line_step (st : fstate) (ix : nat) (undefined : bool) : outcome fstate :=
    if undefined then Ok st
    else
      match last_valid st with
      | Some lv =>
          if (1 <? Z.of_nat ix - Z.of_nat lv) then
            match nth_error (fx st) lv, nth_error (fx st) ix with
            | Some x0, Some x1 =>
                let dx := divz (minus x1 x0) (Z.of_nat ix - Z.of_nat lv) in
                Ok (FState (assign_range (fun jx => plus (scale dx (Z.of_nat jx - Z.of_nat lv)) x0) (S lv) ix (fx st))
                           (Some ix) (first_valid st))
            | _, _ => UB "x[ix]"
            end
          else
            Ok (FState (fx st) (Some ix) (match first_valid st with None => Some ix | Some f => Some f end))
      | None =>
          Ok (FState (fx st) (Some ix) (match first_valid st with None => Some ix | Some f => Some f end))
      end.
  Fixpoint line_loop (mask : list bool) (ix : nat) (st : fstate) : outcome fstate :=
    match mask with
    | [] => Ok st
    | u :: t => olet st' := line_step st ix u in line_loop t (S ix) st'
    end.

  (** fill.hpp:208-270: the line and its mask of undefined values ([true]: undefined). *)
  Definition fill_line (x : list T) (mask : list bool) : outcome (list T * list bool) :=
    olet st := line_loop mask 0 (FState x None None) in
    match first_valid st, last_valid st with
    | Some f, Some l =>
        if Nat.eqb l f then Ok (fx st, map (fun _ => true) mask)
        else
          match nth_error (fx st) f, nth_error (fx st) l with
          | Some x0, Some x1 =>
              let dx := divz (minus x1 x0) (Z.of_nat l - Z.of_nat f) in
              let size := length x in
              let x2 := if (l <? size - 1)%nat
                        then assign_range (fun jx => plus (scale dx (Z.of_nat jx - Z.of_nat l)) x1) (S l) size (fx st)
                        else fx st in
              let x3 := if (0 <? f)%nat
                        then assign_range (fun jx => minus x0 (scale dx (Z.of_nat f - Z.of_nat jx))) 0 f x2
                        else x2 in
              Ok (x3, map (fun _ => false) mask)
          | _, _ => UB "x[first_valid]"
          end
    | _, _ => Ok (fx st, map (fun _ => true) mask)
    end.

  (** ** Matrices (fill.hpp:686-707)

      A matrix with [nr] rows and [nc] columns is a function; [row] and [col] are the
      blocks given to [fill_line]. *)
  Record mstate := MState { mx : nat -> nat -> T; mm : nat -> nat -> bool }.
  Definition write_row (d : T) (i : nat) (r : list T * list bool) (s : mstate) : mstate :=
    MState (fun a b => if Nat.eqb a i then nth b (fst r) d else mx s a b)
           (fun a b => if Nat.eqb a i then nth b (snd r) true else mm s a b).
  Definition write_col (d : T) (j : nat) (r : list T * list bool) (s : mstate) : mstate :=
    MState (fun a b => if Nat.eqb b j then nth a (fst r) d else mx s a b)
           (fun a b => if Nat.eqb b j then nth a (snd r) true else mm s a b).
  Definition fill_row (d : T) (nc : nat) (s : mstate) (i : nat) : outcome mstate :=
    let m := map (mm s i) (seq 0 nc) in
    if forallb (fun u => u) m then Ok s
    else olet r := fill_line (map (mx s i) (seq 0 nc)) m in Ok (write_row d i r s).
  Definition fill_col (d : T) (nr : nat) (s : mstate) (j : nat) : outcome mstate :=
    olet r := fill_line (map (fun i => mx s i j) (seq 0 nr)) (map (fun i => mm s i j) (seq 0 nr)) in
    Ok (write_col d j r s).
  Fixpoint for_each (f : mstate -> nat -> outcome mstate) (l : list nat) (s : mstate) : outcome mstate :=
    match l with
    | [] => Ok s
    | i :: t => olet s' := f s i in for_each f t s'
    end.
  Definition fill_matrix (d : T) (nr nc : nat) (s : mstate) : outcome mstate :=
    olet s1 := for_each (fill_row d nc) (seq 0 nr) s in
    for_each (fill_col d nr) (seq 0 nc) s1.
End Line.

(** The two element types. *)
Definition fill_line_double : list Q -> list bool -> outcome (list Q * list bool) :=
  fill_line Q Qplus Qminus (fun a n => (a * inject_Z n)%Q) (fun a n => (a / inject_Z n)%Q).
(** [int64_t] (dates); overflow is not modelled. *)
Definition fill_line_int : list Z -> list bool -> outcome (list Z * list bool) :=
  fill_line Z Z.add Z.sub Z.mul Z.quot.
Definition fill_matrix_double (nr nc : nat) : mstate Q -> outcome (mstate Q) :=
  fill_matrix Q Qplus Qminus (fun a n => (a * inject_Z n)%Q) (fun a n => (a / inject_Z n)%Q) 0%Q nr nc.

(** fill.hpp:716-724, [fill::vector<int64_t>]: when the fill value is the largest int64
    ([Fill<T>::is]) the mask is [isnan] of integers, hence empty. *)
Definition vector_mask_int (x : list Z) (fill_value : Z) : list bool :=
  if fill_value =? 2 ^ 63 - 1 then map (fun _ => false) x else map (fun v => v =? fill_value) x.
Definition fill_vector_int (x : list Z) (fill_value : Z) : outcome (list Z) :=
  olet r := fill_line_int x (vector_mask_int x fill_value) in Ok (fst r).

(** fill.hpp:345-371, [frame_index]; dividing by zero is undefined. *)
Definition frame_one (index size center ix : Z) (is_angle : bool) : outcome Z :=
  let idx := index - center + ix in
  if is_angle then
    (if size =? 0 then UB "division by zero" else Ok (rem_int idx size))
  else if (idx <? 0) || (size <=? idx) then
    (if (size - 1) * 2 =? 0 then UB "division by zero"
     else
       let wh := rem_int idx ((size - 1) * 2) in
       if size <=? wh then Ok (size - 2 - rem_int wh size) else Ok (rem_int wh size))
  else Ok idx.
Fixpoint frame_list (index size center : Z) (ixs : list Z) (is_angle : bool) : outcome (list Z) :=
  match ixs with
  | [] => Ok []
  | ix :: t => olet a := frame_one index size center ix is_angle in
               olet r := frame_list index size center t is_angle in Ok (a :: r)
  end.
Definition frame_index (index size : Z) (is_angle : bool) (frame_size : Z) : outcome (list Z) :=
  frame_list index size (Z.quot frame_size 2) (map Z.of_nat (seq 0 (Z.to_nat frame_size))) is_angle.
