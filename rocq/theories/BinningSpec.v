(** Independent vocabulary for the binning properties: which bin a coordinate belongs to, the
    share of a sample that goes to each bin in linear binning, sums over the bins. *)
From Verif Require Import Base AxisModel AxisSpec.
Open Scope Z_scope.

(** [sel] is the list of the elements of [l] that satisfy [P], in order. *)
Inductive selects {A : Type} (P : A -> Prop) : list A -> list A -> Prop :=
| sel_nil : selects P [] []
| sel_in s l sel : P s -> selects P l sel -> selects P (s :: l) (s :: sel)
| sel_out s l sel : ~ P s -> selects P l sel -> selects P (s :: l) sel.

(** The angle [r] is in the turn that starts at the smallest bin centre. *)
Definition first_turn (a : axis) (r : Q) : Prop :=
  exists low, (exists k, at_index a k low) /\ (forall j w, at_index a j w -> (low <= w)%Q) /\
    (low <= r)%Q /\ (r < low + 360)%Q.

(** Bin [i] is the one of the coordinate [x]: its centre is the nearest (the last of the equally
    near ones); an angle is first brought into the turn that starts at the smallest centre. *)
Definition in_bin (a : axis) (x : Q) (i : Z) : Prop :=
  exists r, (if is_angle a then same_angle r x /\ first_turn a r else (r == x)%Q) /\ nearest_last a r i.

(** Linear binning along one axis: [x] lies in a cell whose ends are consecutive bin centres [v0]
    and [v1], of length [d]; bin [i] receives the share [w] of the sample. *)
Definition share (a : axis) (x : Q) (i : Z) (w d : Q) : Prop :=
  exists i0 i1 v0 v1,
    at_index a i0 v0 /\ at_index a i1 v1 /\ (i1 = i0 + 1 \/ i0 = i1 + 1) /\
    ((v0 <= x /\ x <= v1)%Q \/ (v1 <= x /\ x <= v0)%Q) /\
    (d == Qabs (v1 - v0))%Q /\
    (if i =? i0 then (w == (v1 - x) / (v1 - v0))%Q
     else if i =? i1 then (w == (x - v0) / (v1 - v0))%Q
     else (w == 0)%Q).

(** The contribution [c] (value and weight, or nothing) of a sample to the bin [(i, j)].
    A share below 2^-52, or corresponding to an area below 1e-12, is dropped. *)
Definition linear_share (ax ay : axis) (s : Q * Q * option Q) (i j : Z) (c : list (option Q * Q)) : Prop :=
  let '(x, y, z) := s in
  match z with
  | None => c = []
  | Some v =>
      (~ (inside ax x /\ inside ay y) /\ c = []) \/
      exists wx dx wy dy, share ax x i wx dx /\ share ay y j wy dy /\
        ((((wx * wy < 1 # 4503599627370496)%Q \/ (wx * wy * (dx * dy) < 1 # 1000000000000)%Q) /\ c = []) \/
         ((1 # 4503599627370496 <= wx * wy)%Q /\ (1 # 1000000000000 <= wx * wy * (dx * dy))%Q /\
          exists w, (w == wx * wy)%Q /\ c = [(Some v, w)]))
  end.

(** Sums over the bins of a grid. *)
Fixpoint qsum (l : list Q) : Q := match l with [] => 0%Q | x :: t => (x + qsum t)%Q end.
Definition grid_sum (rows cols : Z) (f : Z -> Z -> Q) : Q :=
  qsum (map (fun i => qsum (map (f i) (span 0 cols))) (span 0 rows)).

(** Samples whose value is not NaN. *)
Definition has_value (s : Q * Q * option Q) : Prop := snd s <> None.

(** What a user does with a grid of bins: create it, push samples on the nearest bins, merge with
    another grid of bins, clear, save and restore it. *)
Inductive history : Type :=
| Fresh
| Push (h : history) (x y : list Q) (z : list (option Q))
| Merge (h h' : history)
| Clear (h : history)
| Restore (h : history).
(** The samples pushed since the last clear. *)
Fixpoint samples_of (h : history) : list (Q * Q * option Q) :=
  match h with
  | Fresh => []
  | Push h x y z => samples_of h ++ combine (combine x y) z
  | Merge h h' => samples_of h ++ samples_of h'
  | Clear _ => []
  | Restore h => samples_of h
  end.
(** The three arrays of every push have the same size. *)
Fixpoint same_sizes (h : history) : Prop :=
  match h with
  | Fresh => True
  | Push h x y z => same_sizes h /\ length x = length y /\ length x = length z
  | Merge h h' => same_sizes h /\ same_sizes h'
  | Clear h => same_sizes h
  | Restore h => same_sizes h
  end.

(** No share of the sample is dropped: each one is null, or not below the two thresholds. *)
Definition no_share_dropped (ax ay : axis) (s : Q * Q * option Q) : Prop :=
  forall i j wx dx wy dy, share ax (fst (fst s)) i wx dx -> share ay (snd (fst s)) j wy dy ->
    (wx * wy == 0)%Q \/ ((1 # 4503599627370496 <= wx * wy)%Q /\ (1 # 1000000000000 <= wx * wy * (dx * dy))%Q).
