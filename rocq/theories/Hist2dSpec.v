(** What a user reads in a cell of a grid of streaming histograms, and the programs of a user. *)
From Verif Require Import Base AxisModel AxisSpec HistModel HistSpec Hist2dModel BinningSpec.
Open Scope Z_scope.

(** The values of some samples, NaN excluded. *)
Definition values (l : list (Q * Q * option Q)) : list Q := flat_map (fun s => match snd s with Some v => [v] | None => [] end) l.

(** The histogram [c], limited to [n] bins, summarises the values [l]: exact count, total weight, mean
    and minimum; sorted bins; exact maximum unless all the values are below the smallest positive
    double; the quantile function is monotone from the minimum to the maximum; when there was always room
    for all the values they are kept exactly. *)
Definition summary (n : Z) (c : hist) (l : list Q) : Prop :=
  h_count c = zlen l /\ zlen (h_bins c) <= n /\ ascending (map bvalue (h_bins c)) /\
  (sum_of_weights c == inject_Z (zlen l))%Q /\
  (l = [] -> h_bins c = [] /\ hist_get_min c = None /\ hist_get_max c = None /\ hist_mean c = None) /\
  (l <> [] ->
     (exists m, hist_mean c = Some m /\ (m == qsum l / inject_Z (zlen l))%Q) /\
     (exists m, hist_get_min c = Some m /\ least m l) /\
     (exists m, hist_get_max c = Some m /\ ((exists v, In v l /\ (dbl_min <= v)%Q) -> greatest m l)) /\
     exists mn mx f, hist_get_min c = Some mn /\ hist_get_max c = Some mx /\
       (forall q, (0 <= q <= 1)%Q -> hist_quantile c q = Ok (Some (f q)) /\ (mn <= f q <= mx)%Q) /\
       (f 0%Q == mn)%Q /\ (f 1%Q == mx)%Q /\
       (forall p q, (0 <= p)%Q -> (p <= q)%Q -> (q <= 1)%Q -> (f p <= f q)%Q)).

Section Run.
  Variables (lg : Q -> Q) (x y : axis) (bin_count : option Z).
  Fixpoint run2 (h : BinningSpec.history) : outcome hist2 :=
    match h with
    | Fresh => new_hist2 lg x y bin_count
    | BinningSpec.Push h xs ys zs => olet g := run2 h in push2 lg g xs ys zs
    | BinningSpec.Merge h h' => olet g := run2 h in olet g' := run2 h' in add2 lg g g'
    | Clear h => olet g := run2 h in Ok (clear2 g)
    | Restore h => olet g := run2 h in setstate2 lg (getstate2 g)
    end.
End Run.
(** All the values pushed are far from the largest double (HistSpec.moderate). *)
Fixpoint moderate_values (h : BinningSpec.history) : Prop :=
  match h with
  | Fresh => True
  | BinningSpec.Push h xs ys zs => moderate_values h /\ forall v, In (Some v) zs -> moderate v
  | BinningSpec.Merge h h' => moderate_values h /\ moderate_values h'
  | Clear h => moderate_values h
  | Restore h => moderate_values h
  end.
