(** Model of the descriptive statistics in the arithmetic of the machine (binary64, see FloatAxisModel.v): the number of samples,
    the weights, the mean, the limits, the sum and the second moment.  The third and fourth moments, that none of these depends
    on, are left out.

    detail/math/descriptive_statistics.hpp:17-209, descriptive_statistics.hpp:168-226.  StatsModel.v has the same functions in
    exact arithmetic. *)
From Coq Require Import ZArith List.
From Flocq Require Import Core BinarySingleNaN.
From Verif Require Import Base FloatAxisModel FloatGridModel FloatCircleModel.
Import ListNotations.
Open Scope Z_scope.

Record fstat := FStat { fs_count : Z; fs_weights : b64; fs_mean : b64; fs_min : b64; fs_max : b64; fs_sum : b64; fs_mom2 : b64 }.
(** :45-47. *)
Definition fs_clear : fstat := let z := b_of_Z 0 in FStat 0 z z z z z z.
(** :204-208. *)
Definition fs_first (value weight : b64) : fstat :=
  let weighted := b_mult weight value in FStat 1 weight value weighted weighted weighted (b_of_Z 0).
(** :50-82. *)
Definition fs_push (s : fstat) (value : b64) : fstat :=
  if b_eqb (fs_weights s) (b_of_Z 0) then fs_first value (b_of_Z 1)
  else
    let weights := b_plus (fs_weights s) (b_of_Z 1) in
    let inv_n := b_div (b_of_Z 1) weights in
    let delta := b_minus value (fs_mean s) in
    let a := b_mult delta inv_n in
    let mean := b_plus (fs_mean s) a in
    let b := b_minus value mean in
    FStat (fs_count s + 1) weights mean
      (if b_ltb value (fs_min s) then value else fs_min s)
      (if b_ltb value (fs_min s) then fs_max s else if b_ltb (fs_max s) value then value else fs_max s)
      (b_plus (fs_sum s) value) (b_plus (fs_mom2 s) (b_mult delta b)).
(** :152-199. *)
Definition fs_merge (s rhs : fstat) : fstat :=
  let w := b_plus (fs_weights s) (fs_weights rhs) in
  let mn := if b_ltb (fs_min rhs) (fs_min s) then fs_min rhs else fs_min s in
  let mx := if b_ltb (fs_max s) (fs_max rhs) then fs_max rhs else fs_max s in
  let delta := b_minus (fs_mean rhs) (fs_mean s) in
  let delta_w := b_div delta w in
  let ww := b_mult (fs_weights s) (fs_weights rhs) in
  FStat (fs_count s + fs_count rhs) w (b_plus (fs_mean s) (b_mult (fs_weights rhs) delta_w)) mn mx (b_plus (fs_sum s) (fs_sum rhs))
    (b_plus (fs_mom2 s) (b_plus (fs_mom2 rhs) (b_mult (b_mult ww delta) delta_w))).
(** :85-91. *)
Definition fs_push_weighted (s : fstat) (value weight : b64) : fstat :=
  if b_eqb (fs_weights s) (b_of_Z 0) then fs_first value weight else fs_merge s (fs_first value weight).
(** :124-129; None: NaN. *)
Definition fs_variance (s : fstat) (ddof : Z) : option b64 :=
  let cardinal := b_minus (fs_weights s) (b_of_Z ddof) in
  if b_leb cardinal (b_of_Z 0) then None else Some (b_div (fs_mom2 s) cardinal).

Definition is_nan_b64 (x : b64) : bool := @is_nan 53 1024 x.
(** descriptive_statistics.hpp:168-185: the whole array. *)
Definition fs_array (values : list b64) : fstat := fold_left (fun s v => if is_nan_b64 v then s else fs_push s v) values fs_clear.
(** :207-229: the values of one cell of a reduced array, without weights (they are set to one, :60-64). *)
Definition fs_axis (values : list b64) : fstat := fold_left (fun s v => if is_nan_b64 v then s else fs_push_weighted s v (b_of_Z 1)) values fs_clear.
