(** Theorems about [interpolate1d] (property C63). *)
From Verif Require Import Base BaseProofs MathModel AxisModel AxisSpec AxisProofs AxisProofs2 InterpModel InterpSpec Interp1dModel Interp1dSpec InterpProofs InterpProofs2 InterpProofs5 InterpProofs6 InterpProofs7 InterpProps Interp1dProofs.
Open Scope nat_scope.

(** ** Specification *)
(** [xs] lists the points of the axis. *)
Definition points_of (a : axis) (xs : list Q) : Prop :=
  Z.of_nat (length xs) = len a /\ forall i, i < length xs -> at_index a (Z.of_nat i) (at_ xs i).
(** The values of [l] at the positions at most [h] away from [i]. *)
Definition around (h i : nat) (l : list Q) : list Q :=
  map (at_ l) (filter (fun j => Nat.leb i (j + h) && Nat.leb j (i + h)) (seq 0 (length l))).
(** The axis takes [x] as it is: it is not a circle, or [x] is in the turn starting at the
    first point. *)
Definition taken_as_is (a : axis) (x : Q) : Prop :=
  is_angle a = false \/ exists v, at_index a 0 v /\ (v <= x < v + 360)%Q.

(** ** Bridging *)
Lemma points_vals : forall a xs, wf (a_cont a) -> points_of a xs -> xs = vals a.
Proof.
  intros a xs W [L H]. apply list_at_ext; [rewrite vals_length; lia|]. intros k Hk. rewrite vals_at by lia. apply H in Hk. apply at_index_iff in Hk as [_ E]; auto.
Qed.
Lemma filter_all : forall f (l : list nat), (forall j, In j l -> f j = true) -> filter f l = l.
Proof. induction l as [|a l IH]; intro H; cbn; auto. rewrite (H a) by (left; reflexivity). f_equal. apply IH. intros. apply H. right. auto. Qed.
Lemma filter_none : forall f (l : list nat), (forall j, In j l -> f j = false) -> filter f l = [].
Proof. induction l as [|a l IH]; intro H; cbn; auto. rewrite (H a) by (left; reflexivity). apply IH. intros. apply H. right. auto. Qed.
Lemma around_cut : forall h i l, i < length l -> around h i l = cut l (wstart i h) (wcount i h (length l)).
Proof.
  intros h i l H. unfold around. set (s := wstart i h). set (c := wcount i h (length l)).
  assert (B : s + c <= length l) by (unfold s, c, wstart, wcount; lia).
  replace (length l) with (s + (c + (length l - s - c))) at 1 by lia. rewrite !seq_app, !filter_app, !Nat.add_0_l.
  rewrite (filter_none _ (seq 0 s)), (filter_all _ (seq s c)), (filter_none _ (seq (s + c) _)).
  - rewrite app_nil_r. cbn [app]. apply list_at_ext; [rewrite map_length, seq_length, cut_length by exact B; reflexivity|].
    intros k Hk. rewrite map_length, seq_length in Hk. rewrite cut_at by exact Hk. unfold at_ at 1. rewrite (nth_indep _ 0%Q (at_ l 0)) by (rewrite map_length, seq_length; exact Hk). rewrite map_nth, seq_nth by exact Hk. reflexivity.
  - intros j Hj. apply in_seq in Hj. unfold s, c, wstart, wcount in Hj. destruct (Nat.leb_spec i (j + h)), (Nat.leb_spec j (i + h)); cbn; auto. lia.
  - intros j Hj. apply in_seq in Hj. unfold s, c, wstart, wcount in Hj. destruct (Nat.leb_spec i (j + h)), (Nat.leb_spec j (i + h)); cbn; auto; lia.
  - intros j Hj. apply in_seq in Hj. unfold s, wstart in Hj. destruct (Nat.leb_spec i (j + h)), (Nat.leb_spec j (i + h)); cbn; auto; lia.
Qed.

(** * Each value is that of a new interpolator on the window *)
Theorem C63_window : forall pk a xs y h be kind x o0, reachable a -> is_ascending a = true -> points_of a xs -> taken_as_is a x -> length y = length xs ->
  factory_1d kind = Ok o0 ->
  exists i, nearest_last a x (Z.of_nat i) /\
    interpolate_1d pk a y [x] (Z.of_nat h) be kind = (olet v := value pk o0 (around h i xs) (around h i y) x in Ok [v]).
Proof.
  intros pk a xs y h be kind x o0 R A P N L F. pose proof (reachable_ok _ R) as OK. pose proof OK as (W & _). pose proof (points_vals a xs W P) as E. destruct P as [Pn _].
  destruct (single_value pk a y h be kind x o0 OK A N ltac:(lia) F) as (i & NL & Hi & ->). exists i. split; [exact NL|]. rewrite !around_cut by lia. rewrite <- E, L. replace (Z.to_nat (len a)) with (length xs) by lia. reflexivity.
Qed.
Print Assumptions C63_window.

(** * A list of points is answered point by point *)
Lemma loop_pointwise : forall pk a y h be kind (s : nat -> Prop) o0, all_cells pk -> kind <> "c_spline_periodic"%string -> axis_ok a -> is_ascending a = true -> length y = Z.to_nat (len a) -> factory_1d kind = Ok o0 ->
  (forall n, s n) -> forall xi o, used pk kind s o -> (forall x, In x xi -> as_is a x) ->
  forall l, interpolate_loop pk a y (Z.of_nat h) be o xi = Ok l <-> Forall2 (fun x r => interpolate_1d pk a y [x] (Z.of_nat h) be kind = Ok [r]) xi l.
Proof.
  intros pk a y h be kind s o0 P K OK A L F Hs xi. induction xi as [|x t IH]; intros o U N l.
  { cbn. split; [intro H; injection H as <-; constructor|intro H; inversion H; reflexivity]. }
  pose proof (N x (or_introl eq_refl)) as Nx. pose proof OK as (W & _).
  destruct (single_value pk a y h be kind x o0 OK A Nx L F) as (i & NL & Hi & E1). destruct (one_turn pk a y h be o x OK A Nx L) as (i' & NL' & Hi' & E2).
  assert (i' = i).
  { destruct NL as (v & Hv & H1), NL' as (v' & Hv' & H2). destruct (Z.lt_trichotomy (Z.of_nat i) (Z.of_nat i')) as [C|[C|C]]; [|lia|].
    - destruct (H1 _ _ Hv') as [_ Q]. destruct (H2 _ _ Hv) as [Q' _]. specialize (Q C). lra.
    - destruct (H2 _ _ Hv) as [_ Q]. destruct (H1 _ _ Hv') as [Q' _]. specialize (Q C). lra. }
  subst i'. set (xw := cut (vals a) (wstart i h) (wcount i h (Z.to_nat (len a)))) in *. set (yw := cut y (wstart i h) (wcount i h (Z.to_nat (len a)))) in *.
  assert (I : increasing xw) by (apply cut_increasing; [apply vals_increasing; auto|rewrite vals_length; unfold wstart, wcount; lia]).
  assert (V : value pk o xw yw x = value pk o0 xw yw x) by (apply (used_same pk kind s o o0 xw yw x P U F K I)).
  cbn [interpolate_loop]. rewrite E2. split.
  - intro H. destruct (call pk o xw yw x) as [[o' r]| |] eqn:C; cbn [obind] in H; try discriminate. destruct (interpolate_loop pk a y (Z.of_nat h) be o' t) as [rest| |] eqn:Q; cbn [obind] in H; try discriminate. injection H as <-.
    apply call_ok in C as [C1 C2]. constructor; [rewrite E1, <- V, C2; reflexivity|]. apply (IH o'); [eapply used_again; eauto|intros z Hz; apply N; right; exact Hz|exact Q].
  - intro H. inversion H as [|? r ? rest H1 H2]; subst. rewrite E1 in H1. destruct (value pk o0 xw yw x) as [r'| |] eqn:Vr; cbn [obind] in H1; try discriminate. injection H1 as ->.
    destruct (value_call _ _ _ _ _ _ V) as (o' & C). rewrite C. cbn [obind]. apply call_ok in C as [C1 _].
    apply (IH o') in H2; [rewrite H2; reflexivity|eapply used_again; eauto|intros z Hz; apply N; right; exact Hz].
Qed.
Theorem C63_pointwise_partial : forall pk a xs y h be kind xi l, all_cells pk -> kind <> "c_spline_periodic"%string -> reachable a -> is_ascending a = true -> points_of a xs ->
  length y = length xs -> (exists o0, factory_1d kind = Ok o0) -> (forall x, In x xi -> taken_as_is a x) ->
  interpolate_1d pk a y xi (Z.of_nat h) be kind = Ok l <-> Forall2 (fun x r => interpolate_1d pk a y [x] (Z.of_nat h) be kind = Ok [r]) xi l.
Proof.
  intros pk a xs y h be kind xi l P K R A [Pn _] L (o0 & F) N. pose proof (reachable_ok _ R) as OK.
  rewrite <- (loop_pointwise pk a y h be kind any_size o0 P K OK A ltac:(lia) F ltac:(intro; exact I) xi o0 (used_new _ _ _ _ F) N l).
  unfold interpolate_1d, zlen. unfold len in Pn. destruct (Z.eqb_spec (c_size (a_cont a)) (Z.of_nat (length y))); [|lia]. cbn [negb]. rewrite F. cbn [obind]. reflexivity.
Qed.
Print Assumptions C63_pointwise_partial.

(** * Linear and Steffen: the window does not matter *)
Lemma nearest_cell : forall a x i j, wf (a_cont a) -> is_ascending a = true -> nearest_last a x (Z.of_nat i) -> in_cell (vals a) x j -> i = j \/ i = S j.
Proof.
  intros a x i j W A (v & Hv & H) C. pose proof (vals_increasing a W A) as I. pose proof (cell_step _ _ _ I C) as [[C1 C2] _]. destruct C as (C0 & _). rewrite vals_length in C0.
  apply at_index_iff in Hv as [Hi Ev]; [|exact W]. unfold len in *. assert (Hi' : i < length (vals a)) by (rewrite vals_length; unfold len; lia).
  rewrite <- (vals_at a i) in Ev by (unfold len; lia). subst v.
  assert (G : forall k, k < length (vals a) -> (Qabs (x - at_ (vals a) i) <= Qabs (x - at_ (vals a) k))%Q).
  { intros k Hk. apply (H (Z.of_nat k)). apply at_index_iff; [exact W|]. rewrite vals_length in Hk. split; [unfold len in *; lia|]. apply vals_at. lia. }
  destruct (Nat.lt_trichotomy i j) as [Q|[Q|Q]]; [|left; exact Q|].
  - pose proof (increasing_lt _ i j I Q ltac:(rewrite vals_length; unfold len; lia)). specialize (G j ltac:(rewrite vals_length; unfold len; lia)). rewrite !Qabs_pos in G by lra. lra.
  - destruct (Nat.eq_dec i (S j)); [right; assumption|]. pose proof (increasing_lt _ (S j) i I ltac:(lia) Hi'). specialize (G (S j) ltac:(rewrite vals_length; unfold len; lia)). rewrite !Qabs_neg in G by lra. lra.
Qed.
Theorem C63_linear_whole : forall pk a xs y h be x, reachable a -> is_ascending a = true -> points_of a xs -> taken_as_is a x -> length y = length xs ->
  1 <= h -> ~ outside xs x -> 2 <= length xs ->
  exists v v', interpolate_1d pk a y [x] (Z.of_nat h) be "linear" = Ok [Some v] /\ value pk ILinear xs y x = Ok (Some v') /\ (v == v')%Q.
Proof.
  intros pk a xs y h be x R A P N L Hh No Hl. pose proof (reachable_ok _ R) as OK. pose proof OK as (W & _). pose proof (points_vals a xs W P) as E. destruct P as [Pn _].
  destruct (single_value pk a y h be "linear" x ILinear OK A N ltac:(lia) eq_refl) as (i & NL & Hi & ->). rewrite <- E. replace (Z.to_nat (len a)) with (length xs) in * by lia.
  pose proof (vals_increasing a W A) as I. rewrite <- E in I. destruct (cell_exists xs x I Hl) as [O|(j & C)]; [tauto|].
  assert (J : i = j \/ i = S j) by (apply (nearest_cell a x i j W A NL); rewrite <- E; exact C). pose proof C as (Cj & _).
  set (s := wstart i h). set (n := wcount i h (length xs)). assert (B1 : s + n <= length xs) by (unfold s, n, wstart, wcount; lia). assert (B2 : s <= j) by (unfold s, wstart; lia). assert (B3 : S j < s + n) by (unfold s, n, wstart, wcount; lia).
  assert (D : data 2 xs y) by (split; [lia|]; split; [lia|exact I]). pose proof (cut_data 2 xs y s n D B1 ltac:(lia)) as D'. pose proof (cut_cell xs s n x j I B1 B2 B3 C) as C'.
  assert (D2 : data 2 (cut xs s n) (cut y s n)) by (destruct D' as (? & ? & ?); split; [auto|]; split; [rewrite cut_length by exact B1; lia|auto]).
  destruct (value_linear pk any_size ILinear (cut xs s n) (cut y s n) x (used_new _ "linear" _ ILinear eq_refl)) as [-> _]. destruct (linear_cell _ _ _ _ D2 C') as [-> _].
  destruct (value_linear pk any_size ILinear xs y x (used_new _ "linear" _ ILinear eq_refl)) as [-> _]. destruct (linear_cell _ _ _ _ D C) as [-> _]. cbn [obind]. do 2 eexists. split; [reflexivity|]. split; [reflexivity|].
  unfold chord. rewrite !cut_at by lia. replace (s + S (j - s)) with (S j) by lia. replace (s + (j - s)) with j by lia. reflexivity.
Qed.
Print Assumptions C63_linear_whole.
Lemma cut_steffen : forall xs y s n k, s + n <= length xs -> length y = length xs -> 3 <= n -> s <= k -> k < s + n -> (s < k \/ s = 0) -> (S k < s + n \/ s + n = length xs) ->
  steffen_slope (cut xs s n) (cut y s n) (k - s) = steffen_slope xs y k.
Proof.
  intros xs y s n k B L N H1 H2 H3 H4. unfold steffen_slope. rewrite cut_length by exact B.
  assert (CH : forall j, s <= j -> S j < s + n -> chord (cut xs s n) (cut y s n) (j - s) = chord xs y j).
  { intros j J1 J2. unfold chord. rewrite !cut_at by lia. replace (s + S (j - s)) with (S j) by lia. replace (s + (j - s)) with j by lia. reflexivity. }
  destruct (Nat.eqb_spec (k - s) 0) as [Q|Q].
  { destruct (Nat.eqb_spec k 0); [|lia]. rewrite <- (CH 0) by lia. f_equal. }
  destruct (Nat.eqb_spec k 0); [lia|]. destruct (Nat.eqb_spec (k - s) (n - 1)).
  { destruct (Nat.eqb_spec k (length xs - 1)); [|lia]. rewrite <- (CH (length xs - 2)) by lia. f_equal. lia. }
  destruct (Nat.eqb_spec k (length xs - 1)); [lia|].
  replace (k - s - 1) with ((k - 1) - s) by lia. rewrite !CH by lia. rewrite !cut_at by lia. replace (s + (k - 1 - s)) with (k - 1) by lia. replace (s + S (k - s)) with (S k) by lia. replace (s + (k - s)) with k by lia. reflexivity.
Qed.
Theorem C63_steffen_whole : forall pk a xs y h be x, reachable a -> is_ascending a = true -> points_of a xs -> taken_as_is a x -> length y = length xs ->
  2 <= h -> ~ outside xs x -> 3 <= length xs ->
  exists v v', interpolate_1d pk a y [x] (Z.of_nat h) be "steffen" = Ok [Some v] /\ value pk (ISteffen bempty) xs y x = Ok (Some v') /\ (v == v')%Q.
Proof.
  intros pk a xs y h be x R A P N L Hh No Hl. pose proof (reachable_ok _ R) as OK. pose proof OK as (W & _). pose proof (points_vals a xs W P) as E. destruct P as [Pn _].
  destruct (single_value pk a y h be "steffen" x (ISteffen bempty) OK A N ltac:(lia) eq_refl) as (i & NL & Hi & ->). rewrite <- E. replace (Z.to_nat (len a)) with (length xs) in * by lia.
  pose proof (vals_increasing a W A) as I. rewrite <- E in I. destruct (cell_exists xs x I ltac:(lia)) as [O|(j & C)]; [tauto|].
  assert (J : i = j \/ i = S j) by (apply (nearest_cell a x i j W A NL); rewrite <- E; exact C). pose proof C as (Cj & _).
  set (s := wstart i h). set (n := wcount i h (length xs)). assert (B1 : s + n <= length xs) by (unfold s, n, wstart, wcount; lia). assert (B2 : s <= j) by (unfold s, wstart; lia). assert (B3 : S j < s + n) by (unfold s, n, wstart, wcount; lia).
  assert (B4 : 3 <= n) by (unfold n, wcount; lia).
  assert (B5 : s < j \/ s = 0) by (unfold s, wstart; lia). assert (B6 : S (S j) < s + n \/ s + n = length xs) by (unfold s, n, wstart, wcount; lia).
  assert (D : data 3 xs y) by (split; [lia|]; split; [lia|exact I]). pose proof (cut_data 3 xs y s n D B1 ltac:(lia)) as D'. pose proof (cut_cell xs s n x j I B1 B2 B3 C) as C'.
  assert (D2 : data 3 (cut xs s n) (cut y s n)) by (destruct D' as (? & ? & ?); split; [auto|]; split; [rewrite cut_length by exact B1; lia|auto]).
  destruct (value_steffen pk any_size (ISteffen bempty) (cut xs s n) (cut y s n) x (j - s) (used_new _ "steffen" _ (ISteffen bempty) eq_refl) D2 C') as (v & _ & -> & _ & V & _).
  destruct (value_steffen pk any_size (ISteffen bempty) xs y x j (used_new _ "steffen" _ (ISteffen bempty) eq_refl) D C) as (v' & _ & -> & _ & V' & _). cbn [obind]. exists v, v'. split; [reflexivity|]. split; [reflexivity|].
  rewrite V, V'. replace (S (j - s)) with (S j - s) by lia. rewrite !cut_steffen by lia. rewrite !cut_at by lia. replace (s + (S j - s)) with (S j) by lia. replace (s + (j - s)) with j by lia. reflexivity.
Qed.
Print Assumptions C63_steffen_whole.

(** * Window of one point, window too small *)
Definition min_points (kind : string) : nat :=
  if String.eqb kind "linear" then 2 else if String.eqb kind "c_spline_periodic" then 2 else if String.eqb kind "steffen" then 3 else if String.eqb kind "polynomial" then 3
  else if String.eqb kind "c_spline" then 4 else 5.
Lemma too_few : forall pk kind o0 xa ya x, factory_1d kind = Ok o0 -> length xa = length ya -> length xa < min_points kind -> exists m, value pk o0 xa ya x = Throw m.
Proof.
  intros pk kind o0 xa ya x F L H.
  assert (G : forall m, length xa < m -> exists w, check_sizes m xa ya = Throw w).
  { intros m Hm. destruct (check_cases m xa ya) as [E|(_ & _ & E)]; [exact E|lia]. }
  assert (L1 : forall (B : Type) (f : unit -> outcome B) m, length xa < m -> exists w, obind (check_sizes m xa ya) f = Throw w).
  { intros B f m Hm. destruct (G m Hm) as (w & ->). exists w. reflexivity. }
  unfold factory_1d in F. unfold min_points in H. unfold value.
  destruct (String.eqb kind "linear"); [injection F as <-; cbn [compute_coefficients]; destruct (G 2 H) as (w & E); unfold linear_min_size; rewrite E; exists w; reflexivity|].
  destruct (String.eqb_spec kind "polynomial") as [->|_]; [injection F as <-; cbn in H; cbn [compute_coefficients]; unfold poly_compute, polynomial_min_size; destruct (G 3 H) as (w & E); rewrite E; exists w; reflexivity|].
  destruct (String.eqb_spec kind "c_spline") as [->|_]; [injection F as <-; cbn in H; cbn [compute_coefficients]; unfold cspline_compute, cspline_min_size; destruct (G 4 H) as (w & E); rewrite E; exists w; reflexivity|].
  destruct (String.eqb_spec kind "c_spline_periodic") as [->|_]; [injection F as <-; cbn in H; cbn [compute_coefficients]; unfold pspline_compute, pspline_min_size; destruct (G 2 H) as (w & E); rewrite E; exists w; reflexivity|].
  destruct (String.eqb_spec kind "akima") as [->|_]; [injection F as <-; cbn in H; cbn [compute_coefficients]; unfold akima_compute, akima_min_size; destruct (G 5 H) as (w & E); rewrite E; exists w; reflexivity|].
  destruct (String.eqb_spec kind "akima_periodic") as [->|_]; [injection F as <-; cbn in H; cbn [compute_coefficients]; unfold akima_compute, akima_min_size; destruct (G 5 H) as (w & E); rewrite E; exists w; reflexivity|].
  destruct (String.eqb_spec kind "steffen") as [->|_]; [injection F as <-; cbn in H; cbn [compute_coefficients]; unfold steffen_compute, steffen_min_size; destruct (G 3 H) as (w & E); rewrite E; exists w; reflexivity|discriminate].
Qed.
Theorem C63_small_window_throws : forall pk a xs y h be kind x o0, reachable a -> is_ascending a = true -> points_of a xs -> taken_as_is a x -> length y = length xs ->
  factory_1d kind = Ok o0 -> 2 * h + 1 < min_points kind -> exists m, interpolate_1d pk a y [x] (Z.of_nat h) be kind = Throw m.
Proof.
  intros pk a xs y h be kind x o0 R A P N L F H. pose proof (reachable_ok _ R) as OK. pose proof OK as (W & _). pose proof (points_vals a xs W P) as E. destruct P as [Pn _].
  destruct (single_value pk a y h be kind x o0 OK A N ltac:(lia) F) as (i & NL & Hi & ->). rewrite <- E. replace (Z.to_nat (len a)) with (length xs) in * by lia.
  set (s := wstart i h). set (n := wcount i h (length xs)). assert (B1 : s + n <= length xs) by (unfold s, n, wstart, wcount; lia).
  destruct (too_few pk kind o0 (cut xs s n) (cut y s n) x F) as (m & ->); [rewrite !cut_length by lia; reflexivity|rewrite cut_length by lia; unfold n, wcount; lia|]. exists m. reflexivity.
Qed.
Print Assumptions C63_small_window_throws.

(** * [bounds_error] has no effect *)
Lemma interpolate_one_bounds : forall pk a y h o x, axis_ok a -> interpolate_one pk a y h true o x = interpolate_one pk a y h false o x.
Proof.
  intros pk a y h o x (W & _). unfold interpolate_one, find_index. destruct (c_find_spec (a_cont a) (normalize_coordinate a x) true W) as (r & -> & [(_ & F & _)|[R _]]); [discriminate|].
  cbn [obind]. destruct (Z.eqb_spec r (-1)); [lia|reflexivity].
Qed.
Theorem C63_bounds_error_refuted : forall pk a y xi h kind, reachable a -> interpolate_1d pk a y xi h true kind = interpolate_1d pk a y xi h false kind.
Proof.
  intros pk a y xi h kind R. apply reachable_ok in R. unfold interpolate_1d. destruct (negb _); [reflexivity|]. destruct (factory_1d kind) as [o| |]; cbn [obind]; auto. revert o.
  induction xi as [|x t IH]; intro o; cbn [interpolate_loop]; [reflexivity|]. rewrite interpolate_one_bounds by exact R. destruct (interpolate_one _ _ _ _ _ _ _) as [[o' r]| |]; cbn [obind]; auto. rewrite IH. reflexivity.
Qed.
Print Assumptions C63_bounds_error_refuted.
(** For instance a point outside the axis yields a missing value. *)
Theorem C63_outside_is_missing_refuted : forall pk a xs y h x, reachable a -> is_ascending a = true -> points_of a xs -> taken_as_is a x -> length y = length xs -> 1 <= h -> 2 <= length xs ->
  outside xs x -> interpolate_1d pk a y [x] (Z.of_nat h) true "linear" = Ok [None].
Proof.
  intros pk a xs y h x R A P N L Hh Hl O. pose proof (reachable_ok _ R) as OK. pose proof OK as (W & _). pose proof (points_vals a xs W P) as E. destruct P as [Pn _].
  destruct (single_value pk a y h true "linear" x ILinear OK A N ltac:(lia) eq_refl) as (i & NL & Hi & ->). rewrite <- E. replace (Z.to_nat (len a)) with (length xs) in * by lia.
  pose proof (vals_increasing a W A) as I. rewrite <- E in I.
  set (s := wstart i h). set (n := wcount i h (length xs)). assert (B1 : s + n <= length xs) by (unfold s, n, wstart, wcount; lia). assert (B2 : 2 <= n) by (unfold n, wcount; lia).
  pose proof (cut_increasing xs s n I B1) as I'.
  assert (D : data 2 (cut xs s n) (cut y s n)) by (split; [rewrite !cut_length by lia; reflexivity|]; split; [rewrite cut_length by lia; exact B2|exact I']).
  assert (O' : outside (cut xs s n) x).
  { unfold outside in *. rewrite cut_length by exact B1. rewrite !cut_at by lia. destruct O as [O|O].
    - left. pose proof (increasing_le xs 0 (s + 0) I ltac:(lia) ltac:(lia)). lra.
    - right. pose proof (increasing_le xs (s + (n - 1)) (length xs - 1) I ltac:(lia) ltac:(lia)). lra. }
  destruct (value_linear pk any_size ILinear (cut xs s n) (cut y s n) x (used_new _ "linear" _ ILinear eq_refl)) as [-> _]. unfold linear, linear_min_size. rewrite (check_ok _ _ _ D). cbn [obind]. unfold linear_interp.
  rewrite (search_outside _ x I' ltac:(rewrite cut_length by exact B1; exact B2) O'). reflexivity.
Qed.
Print Assumptions C63_outside_is_missing_refuted.

(** * The periodic spline: the answer depends on the points asked before *)
Definition axis_values (l : list Q) (circle : bool) : axis :=
  match axis_of_values l (1 # 1000000) circle with Ok a => a | _ => mk_axis false None CUndef end.
Definition xs5 : list Q := [0; 1; 2; 3; 5]%Q.
Definition ys5 : list Q := [0; 1; 2; 0; 0]%Q.
Lemma xs5_reachable : reachable (axis_values xs5 false) /\ is_ascending (axis_values xs5 false) = true /\ points_of (axis_values xs5 false) xs5.
Proof.
  split; [apply (reach_values xs5 (1 # 1000000) false); [lra|vm_compute; reflexivity]|]. split; [vm_compute; reflexivity|].
  split; [vm_compute; reflexivity|]. intros i Hi. cbn in Hi. do 5 (destruct i as [|i]; [vm_compute; reflexivity|]). lia.
Qed.
Theorem C63_periodic_spline_order_refuted : exists pk a xs y x1 x2 u r1 r2, all_cells pk /\ reachable a /\ is_ascending a = true /\ points_of a xs /\ length y = length xs /\
  interpolate_1d pk a y [x2] 2 false "c_spline_periodic" = Ok [Some r2] /\
  interpolate_1d pk a y [x1; x2] 2 false "c_spline_periodic" = Ok [u; Some r1] /\ ~ (r1 == r2)%Q.
Proof.
  exists whole, (axis_values xs5 false), xs5, ys5, 2%Q, (1 # 2)%Q. destruct xs5_reachable as (R & A & P).
  assert (V2 : exists r2, interpolate_1d whole (axis_values xs5 false) ys5 [1 # 2]%Q 2 false "c_spline_periodic" = Ok [Some r2] /\ Qred r2 = (1 # 8)%Q) by (clear; vm_compute; eexists; split; reflexivity).
  assert (V1 : exists u r1, interpolate_1d whole (axis_values xs5 false) ys5 [2; 1 # 2]%Q 2 false "c_spline_periodic" = Ok [u; Some r1] /\ Qltb r1 (1 # 8) = true) by (clear; vm_compute; do 2 eexists; split; reflexivity).
  destruct V2 as (r2 & V2 & E2), V1 as (u & r1 & V1 & E1). exists u, r1, r2. split; [exact whole_all|]. split; [exact R|]. split; [exact A|]. split; [exact P|]. split; [reflexivity|]. split; [exact V2|]. split; [exact V1|].
  apply Qltb_iff in E1. rewrite <- (Qred_correct r2), E2. intro H. lra.
Qed.
Print Assumptions C63_periodic_spline_order_refuted.

(** * Longitudes are reduced to choose the window but not to evaluate *)
Theorem C63_longitude_refuted : exists pk a xs y x v, all_cells pk /\ reachable a /\ is_angle a = true /\ is_ascending a = true /\ points_of a xs /\ length y = length xs /\
  interpolate_1d pk a y [x] 2 false "linear" = Ok [Some v] /\ interpolate_1d pk a y [(x - 360)%Q] 2 false "linear" = Ok [None].
Proof.
  exists whole, (axis_values [0; 10; 20; 30; 50]%Q true), [0; 10; 20; 30; 50]%Q, [1; 2; 3; 4; 5]%Q, 25%Q.
  assert (V : exists v, interpolate_1d whole (axis_values [0; 10; 20; 30; 50]%Q true) [1; 2; 3; 4; 5]%Q [25]%Q 2 false "linear" = Ok [Some v]) by (vm_compute; eexists; reflexivity).
  destruct V as (v & V). exists v. split; [exact whole_all|]. split; [apply (reach_values [0; 10; 20; 30; 50]%Q (1 # 1000000) true); [lra|vm_compute; reflexivity]|].
  split; [reflexivity|]. split; [reflexivity|]. split; [split; [reflexivity|]; intros i Hi; cbn in Hi; do 5 (destruct i as [|i]; [vm_compute; reflexivity|]); lia|]. split; [reflexivity|]. split; [exact V|]. vm_compute. reflexivity.
Qed.
Print Assumptions C63_longitude_refuted.

Example C63_ex : exists v, taken_as_is (axis_values xs5 false) (5 # 2) /\ ~ outside xs5 (5 # 2) /\ around 1 3 xs5 = [2; 3; 5]%Q /\
  interpolate_1d whole (axis_values xs5 false) ys5 [5 # 2]%Q 1 false "linear" = Ok [Some v] /\ (v == 1)%Q.
Proof.
  assert (V : exists v, interpolate_1d whole (axis_values xs5 false) ys5 [5 # 2]%Q 1 false "linear" = Ok [Some v] /\ Qred v = 1%Q) by (vm_compute; eexists; split; reflexivity).
  destruct V as (v & V & E). exists v. split; [left; reflexivity|]. split; [intros [H|H]; vm_compute in H; discriminate|]. split; [reflexivity|]. split; [exact V|]. rewrite <- (Qred_correct v), E. reflexivity.
Qed.
