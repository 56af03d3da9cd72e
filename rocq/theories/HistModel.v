(** Model of the streaming histogram:
    include/pyinterp/detail/math/streaming_histogram.hpp (T = double, exact rationals)
    and of the wrapper include/pyinterp/streaming_histogram.hpp. *)
From Verif Require Import Base.
Open Scope Z_scope.

(** Largest finite and smallest positive normal double: [numeric_limits<double>::max()]
    and [min()]. *)
Definition dbl_max : Q := inject_Z ((2 ^ 53 - 1) * 2 ^ 971).
Definition dbl_min : Q := (1 # (2 ^ 1022)%positive)%Q.

(** :29-33: value and weight. *)
Definition bin : Type := (Q * Q)%type.
Definition bvalue (b : bin) : Q := fst b.
Definition bweight (b : bin) : Q := snd b.

(** :256-261. *)
Record hist := Hist {
  h_weighted : bool; h_bin_count : Z; h_count : Z; h_min : Q; h_max : Q; h_bins : list bin }.

(** :88 with the default members. *)
Definition hist_new : hist := Hist false 100 0 dbl_max dbl_min [].

Section Differences.
  (** [lg w] stands for [std::log(1e-5 + w)] (not a rational function). *)
  Variable lg : Q -> Q.

  (** :66-77. *)
  Definition difference (weighted : bool) (lhs rhs : bin) : Q :=
    (if weighted then (bvalue lhs - bvalue rhs) * lg (Qmin (bweight lhs) (bweight rhs))
     else bvalue lhs - bvalue rhs)%Q.

  (** :40-52: index of the first smallest difference below [dbl_max]; [None] is the initial
      [numeric_limits<size_t>::max()]. *)
  Fixpoint scan (weighted : bool) (bins : list bin) (ix : nat) (diff : Q) (index : option nat) : option nat :=
    match bins with
    | b0 :: ((b1 :: _) as t) =>
        let d := difference weighted b1 b0 in
        if Qltb d diff then scan weighted t (S ix) d (Some ix) else scan weighted t (S ix) diff index
    | _ => index
    end.
  Definition min_index (weighted : bool) (bins : list bin) : option nat :=
    scan weighted bins 0 dbl_max None.

  (** :303-307, :308: bins [ix] and [ix + 1] replaced by one. *)
  Definition combine_bins (a b : bin) : bin :=
    ((bvalue a * bweight a + bvalue b * bweight b) / (bweight a + bweight b), bweight a + bweight b)%Q.
  Fixpoint merge_at (ix : nat) (bins : list bin) : option (list bin) :=
    match ix, bins with
    | O, a :: b :: t => Some (combine_bins a b :: t)
    | S ix', a :: t => option_map (cons a) (merge_at ix' t)
    | _, _ => None
    end.

  (** :293-310.  Each turn removes one bin, so [fuel = length bins] turns are enough
      (the theorems show that the fuel never runs out). *)
  Fixpoint trim_loop (fuel : nat) (weighted : bool) (bin_count : Z) (bins : list bin) : outcome (list bin) :=
    if bin_count <? zlen bins then
      match min_index weighted bins with
      | None => UB "bins_[SIZE_MAX]"
      | Some ix =>
          match merge_at ix bins, fuel with
          | Some bins', S f => trim_loop f weighted bin_count bins'
          | Some _, O => UB "out of fuel"
          | None, _ => UB "bins_[ix + 1]"
          end
      end
    else Ok bins.
  Definition trim (h : hist) : outcome hist :=
    olet bins := trim_loop (length (h_bins h)) (h_weighted h) (h_bin_count h) (h_bins h) in
    Ok (Hist (h_weighted h) (h_bin_count h) (h_count h) (h_min h) (h_max h) bins).

  (** :281-284: [std::lower_bound] with [lhs.value <= rhs] on sorted bins: the number of
      leading bins whose value is at most [v]. *)
  Fixpoint lower_bound (v : Q) (bins : list bin) : nat :=
    match bins with
    | [] => O
    | b :: t => if Qle_bool (bvalue b) v then S (lower_bound v t) else O
    end.
  (** :291, [insert] before position [n]. *)
  Definition insert_at (n : nat) (b : bin) (bins : list bin) : list bin := firstn n bins ++ b :: skipn n bins.

  (** :264-292. *)
  Definition update_bins (bins : list bin) (value weight : Q) : outcome (list bin) :=
    match bins with
    | [] => Ok [(value, weight)]
    | front :: _ =>
        if Qle_bool value (bvalue front) then Ok ((value, weight) :: bins)
        else if Qle_bool (bvalue (last bins front)) value then Ok (bins ++ [(value, weight)])
        else
          let index := lower_bound value bins in
          match nth_error bins index with
          | None => UB "bins_[index]"
          | Some b =>
              if Qeq_bool (bvalue b) value
              then Ok (set_nth index (bvalue b, bweight b + weight)%Q bins)
              else Ok (insert_at index (value, weight) bins)
          end
    end.

  (** :146-157. *)
  Definition hist_push (h : hist) (value weight : Q) : outcome hist :=
    let wv := (weight * value)%Q in
    let mn := if Qltb wv (h_min h) then wv else h_min h in
    let mx := if Qltb (h_max h) wv then wv else h_max h in
    olet bins := update_bins (h_bins h) value weight in
    trim (Hist (h_weighted h) (h_bin_count h) (h_count h + 1) mn mx bins).

  (** :160-172. *)
  Fixpoint update_all (bins items : list bin) : outcome (list bin) :=
    match items with
    | [] => Ok bins
    | b :: t => olet bins' := update_bins bins (bvalue b) (bweight b) in update_all bins' t
    end.
  Definition hist_merge (h other : hist) : outcome hist :=
    let mn := if Qltb (h_min other) (h_min h) then h_min other else h_min h in
    let mx := if Qltb (h_max h) (h_max other) then h_max other else h_max h in
    olet bins := update_all (h_bins h) (h_bins other) in
    trim (Hist (h_weighted h) (h_bin_count h) (h_count h + h_count other) mn mx bins).

  (** :130-133. *)
  Definition hist_resize (h : hist) (bin_count : Z) : outcome hist :=
    trim (Hist (h_weighted h) bin_count (h_count h) (h_min h) (h_max h) (h_bins h)).
End Differences.

(** :178-182. *)
Definition sum_of_weights (h : hist) : Q := fold_left (fun a b => a + bweight b)%Q (h_bins h) 0%Q.

(** :312-321 and :227, [moment(0, 1)]; [None] when the weights sum to zero. *)
Definition hist_mean (h : hist) : option Q :=
  let m := fold_left (fun a b => a + bweight b * (bvalue b - 0))%Q (h_bins h) 0%Q in
  let w := fold_left (fun a b => a + bweight b)%Q (h_bins h) 0%Q in
  if Qeq_bool w 0 then None else Some (m / w)%Q.

(** :245-253; [None] is NaN. *)
Definition hist_get_min (h : hist) : option Q := if h_count h =? 0 then None else Some (h_min h).
Definition hist_get_max (h : hist) : option Q := if h_count h =? 0 then None else Some (h_max h).

(** :214-223: the loop; the condition reads [bins_[ix + 1]] before comparing [ix] with
    the size, and [ix < size - 1] holds whenever [ix + 1] is a valid index. *)
Fixpoint quantile_loop (bins : list bin) (mb : Q) : outcome Q :=
  match bins with
  | b0 :: ((b1 :: _) as t) =>
      let half := ((bweight b0 + bweight b1) * (1 # 2))%Q in
      if Qltb 0 (mb - half) then quantile_loop t (mb - half)
      else Ok (bvalue b0 + mb / half * (bvalue b1 - bvalue b0))%Q
  | _ => UB "bins_[ix + 1]"
  end.

(** :190-224; [None] is NaN. *)
Definition hist_quantile (h : hist) (quantile : Q) : outcome (option Q) :=
  match h_bins h with
  | [] => Ok None
  | front :: _ =>
      if Qltb quantile 0 || Qltb 1 quantile then Throw "Quantile must be in the range [0, 1]"
      else
        let back := last (h_bins h) front in
        let weights := sum_of_weights h in
        let qw := (weights * quantile)%Q in
        if Qle_bool qw (bweight front * (1 # 2)) then
          let ratio := (qw / (bweight front * (1 # 2)))%Q in
          Ok (Some (h_min h + ratio * (bvalue front - h_min h))%Q)
        else if Qle_bool (weights - bweight back * (1 # 2)) qw then
          let base := (qw - (weights - bweight back * (1 # 2)))%Q in
          let ratio := (base / (bweight back * (1 # 2)))%Q in
          Ok (Some (bvalue back + ratio * (h_max h - bvalue back))%Q)
        else
          olet r := quantile_loop (h_bins h) (qw - bweight front * (1 # 2))%Q in
          Ok (Some r)
  end.

(* ------------------------------------------------------------------ *)
(** * What users do with a histogram *)

(** [New n]: constructed with [n] bins (streaming_histogram.hpp wrapper :225-233, the
    default constructor followed by [resize]); [Push]: a value that is not NaN; [Merge]:
    [+=]; [Resize]. *)
Inductive history :=
| New (bin_count : Z)
| Push (h : history) (value weight : Q)
| Merge (h other : history)
| Resize (h : history) (bin_count : Z).

Fixpoint run (lg : Q -> Q) (h : history) : outcome hist :=
  match h with
  | New n => hist_resize lg hist_new n
  | Push h v w => olet s := run lg h in hist_push lg s v w
  | Merge h o => olet s := run lg h in olet t := run lg o in hist_merge lg s t
  | Resize h n => olet s := run lg h in hist_resize lg s n
  end.
