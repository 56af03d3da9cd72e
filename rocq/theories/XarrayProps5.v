(** Theorems about the grids built from labelled arrays (C105, continued): values and limits. *)
From Coq Require Import Permutation.
From Verif Require Import Base BaseProofs MathModel AxisModel AxisSpec AxisProofs IntAxisModel IntAxisProofs GridModel GridSpec GridProofs
  XarrayModel XarraySpec XarrayProofs XarrayProps XarrayProofs2 XarrayProps3 XarrayProps4.
Open Scope Z_scope.

Lemma grid_value_agree : forall a a' i, agree a a' -> length i = length (nd_shape a) -> grid_value a' i = grid_value a i.
Proof. intros a a' i [S C] L. unfold grid_value. rewrite <- S, (C i L). reflexivity. Qed.
Ltac go := match goal with
  | |- context [obind ?e _] => destruct e; cbn [obind]; try reflexivity
  end.
Ltac pairs := repeat match goal with o : option (Z * Z) |- _ => destruct o as [[? ?]|]; [|reflexivity] end.
Lemma same_core : forall dim axes a c dim' axes' a' c', core_new dim axes a = Ok c -> core_new dim' axes' a' = Ok c' -> fst (parts c') = fst (parts c) -> agree (snd (parts c)) (snd (parts c')) ->
  match c, c' with
  | G2 g, G2 g' => forall d e f be x y, bivariate d e g' f be x y = bivariate d e g f be x y
  | G3 g, G3 g' => forall d e f zf be x y z, trivariate d e g' f zf be x y z = trivariate d e g f zf be x y z
  | G4 g, G4 g' => forall d e f zf uf be x y z u, quadrivariate d e g' f zf uf be x y z u = quadrivariate d e g f zf uf be x y z u
  | _, _ => False
  end.
Proof.
  intros dim axes a c dim' axes' a' c' H H' P A. destruct (core_new_parts _ _ _ _ H) as [Pc F]. rewrite Pc in P, A. cbn [fst snd] in P, A.
  assert (L : length (nd_shape a) = length axes) by (rewrite F, map_length; reflexivity).
  destruct c as [g|g|g], c' as [g'|g'|g']; cbn [parts fst snd] in *; try (injection Pc as <- <-; discriminate).
  - assert (E1 : axes = [ZReal (g2_x g); ZReal (g2_y g)]) by congruence. assert (E2 : a = g2_array g) by congruence. rewrite E1 in P, L. rewrite E2 in A, L. clear E1 E2. injection P as PX PY. cbn [length] in L. clear H H' Pc F. clear a.
    intros. unfold bivariate. rewrite PX, PY. go. go. pairs. do 4 go. rewrite !(grid_value_agree _ _ _ A) by (rewrite L; reflexivity). reflexivity.
  - assert (E1 : axes = [ZReal (g3_x g); ZReal (g3_y g); g3_z g]) by congruence. assert (E2 : a = g3_array g) by congruence. rewrite E1 in P, L. rewrite E2 in A, L. clear E1 E2. injection P as PX PY PZ. cbn [length] in L. clear H H' Pc F. clear a.
    intros. unfold trivariate. rewrite PX, PY, PZ. do 3 go. pairs.
    do 6 go. rewrite !(grid_value_agree _ _ _ A) by (rewrite L; reflexivity). reflexivity.
  - assert (E1 : axes = [ZReal (g4_x g); ZReal (g4_y g); g4_z g; ZReal (g4_u g)]) by congruence. assert (E2 : a = g4_array g) by congruence. rewrite E1 in P, L. rewrite E2 in A, L. clear E1 E2. injection P as PX PY PZ PU. cbn [length] in L. clear H H' Pc F. clear a.
    intros. unfold quadrivariate. rewrite PX, PY, PZ, PU. do 4 go. pairs.
    do 6 go. cbv zeta. rewrite !(grid_value_agree _ _ _ A) by (rewrite L; reflexivity). reflexivity.
Qed.
Lemma same_grid_call : forall x x' d e cast q f zm um be, same_grid x x' -> call d e cast x' q f zm um be = call d e cast x q f zm um be.
Proof.
  intros x x' d e cast q f zm um be (D & T & c & c' & V & V' & P & A). unfold call. rewrite D, T, V, V'. destruct (coords cast q (xg_dims x) (xg_time x)) as [args| |]; cbn [obind]; try reflexivity.
  unfold view in V, V'. destruct (deref (xg_heap x) _) as [axes| |]; cbn [obind] in V; try discriminate. destruct (deref (xg_heap x') _) as [axes'| |]; cbn [obind] in V'; try discriminate.
  pose proof (same_core _ _ _ _ _ _ _ _ V V' P A) as S. destruct c, c'; try contradiction; destruct args as [|? [|? [|? [|? [|]]]]]; try reflexivity.
  - apply S.
  - destruct (z_method zm); cbn [obind]; try reflexivity. apply S.
  - destruct (z_method zm); cbn [obind]; try reflexivity. destruct (z_method um); cbn [obind]; try reflexivity. apply S.
Qed.
(** The interpolated values do not depend on the order in which the dimensions are stored. *)
Theorem C105_storage_values : forall order order' da da' inc geodetic x, same_data da da' -> da_ok da -> da_ok da' ->
  (forall l, Permutation (order l) l) -> (forall l, Permutation (order' l) l) -> (length (nd_shape (da_values da)) <= 3)%nat ->
  regular_grid order da inc geodetic = Ok x -> exists x', regular_grid order' da' inc geodetic = Ok x' /\
    forall d e cast q f zm um be, call d e cast x' q f zm um be = call d e cast x q f zm um be.
Proof.
  intros order order' da da' inc geodetic x Sd OK OK' Or Or' L3 H. destruct (C105_storage order order' da da' inc geodetic x Sd OK OK' Or Or' L3 H) as (x' & H' & S).
  exists x'. split; [exact H'|]. intros. apply same_grid_call. exact S.
Qed.
Print Assumptions C105_storage_values.

(** ** Examples *)
Local Open Scope string_scope.
Definition lonc : coord := Coord "lon" (Some "degrees_east") ["lon"] (CReal [0; 1]%Q).
Definition latc : coord := Coord "lat" (Some "degrees_north") ["lat"] (CReal [0; 1]%Q).
Definition timec (v : list Z) : coord := Coord "time" None ["time"] (CDatetime v).
(** A variable stored as (time, lat, lon), whose value is the square of the time. *)
Definition squares (v : list Z) : data_array :=
  DataArray ["time"; "lat"; "lon"] [timec v; latc; lonc]
    (NdArray [4; 2; 2] (fun i => match i with [k; j; i] => Some (inject_Z (i + 10 * j + (nth (Z.to_nat k) v 0) * (nth (Z.to_nat k) v 0))) | _ => None end)).
Lemma id_perm : forall l : list string, Permutation ((fun l => l) l) l.
Proof. intro l. apply Permutation_refl. Qed.
Lemma squares_ok : forall v, da_ok (squares v).
Proof.
  intro v. split; [|split; [reflexivity|]]; cbn [squares da_dims da_coords da_values map co_name timec latc lonc]; repeat constructor; cbn; intuition discriminate.
Qed.
Definition no_cast (q : Q) : outcome Q := Ok q.
(** The hypotheses of the theorems are met: a geodetic array whose dimensions are stored in another
    order than that of the grid. *)
Theorem C105_ex : exists x v, da_ok (squares [0; 4; 8; 12]) /\ regular_grid (fun l => l) (squares [0; 4; 8; 12]) true true = Ok x /\
  xg_dims x = ["lon"; "lat"; "time"] /\ xg_time x = Some "time" /\
  call gap2 gap2 no_cast x [("time", 8%Q); ("lat", 1%Q); ("lon", 0%Q)] Bilinear "linear" "linear" true = Ok (Some v) /\ (v == 74)%Q.
Proof. eexists. eexists. split; [apply squares_ok|]. split; [vm_compute; reflexivity|]. split; [reflexivity|]. split; [reflexivity|]. split; [vm_compute; reflexivity|]. reflexivity. Qed.
(** [RegularGridInterpolator] makes the axes increasing unless told otherwise.  With evenly spaced
    dates in decreasing order the interpolated values are wrong: the array below and the one where
    the dates are in increasing order give the same value to each date, place by place, but not the
    same value between two dates. *)
Theorem C105_descending_dates_refuted : exists x x' v v',
  da_ok (squares [12; 8; 4; 0]) /\ da_ok (squares [0; 4; 8; 12]) /\
  regular_grid (fun l => l) (squares [12; 8; 4; 0]) true true = Ok x /\ regular_grid (fun l => l) (squares [0; 4; 8; 12]) true true = Ok x' /\
  (exists c c', view (xg_heap x) (xg_grid x) = Ok c /\ view (xg_heap x') (xg_grid x') = Ok c' /\ forall i j k t, In i [0; 1] -> In j [0; 1] -> In k [0; 1; 2; 3] ->
     (z_at_index (nth 2 (fst (parts c)) (ZReal xup)) k t <-> z_at_index (nth 2 (fst (parts c')) (ZReal xup)) k t) /\ nd_cell (snd (parts c)) [i; j; k] = nd_cell (snd (parts c')) [i; j; k]) /\
  call gap2 gap2 no_cast x [("time", 5%Q); ("lat", 0%Q); ("lon", 0%Q)] Bilinear "linear" "linear" true = Ok (Some v) /\
  call gap2 gap2 no_cast x' [("time", 5%Q); ("lat", 0%Q); ("lon", 0%Q)] Bilinear "linear" "linear" true = Ok (Some v') /\
  (v == 20)%Q /\ (v' == 28)%Q.
Proof.
  do 4 eexists. split; [apply squares_ok|]. split; [apply squares_ok|]. split; [vm_compute; reflexivity|]. split; [vm_compute; reflexivity|]. split.
  { do 2 eexists. split; [vm_compute; reflexivity|]. split; [vm_compute; reflexivity|].
    intros i j k t Hi Hj Hk. destruct Hk as [<-|[<-|[<-|[<-|[]]]]]; destruct Hi as [<-|[<-|[]]]; destruct Hj as [<-|[<-|[]]]; (split; [cbn; reflexivity|reflexivity]). }
  split; [vm_compute; reflexivity|]. split; [vm_compute; reflexivity|]. split; reflexivity.
Qed.
(** A coordinate that is not a dimension, listed first, makes a plain array unusable. *)
Theorem C105_coordinates_refuted : exists order da x w, (forall l, Permutation (order l) l) /\ da_ok da /\
  xgrid2 da true true = Ok x /\ regular_grid order da true false = Throw w.
Proof.
  exists (fun l => l), (DataArray ["lat"; "lon"] [Coord "station" None [] (CReal [7%Q]); latc; lonc] (NdArray [2; 2] (fun _ => Some 0%Q))). do 2 eexists.
  split; [exact id_perm|]. split; [split; [|split; [reflexivity|]]; cbn; repeat constructor; cbn; intuition discriminate|]. split; vm_compute; reflexivity.
Qed.
(** Durations are an axis of a three dimensional array, not of a four dimensional one. *)
Definition lead (extra : bool) : data_array :=
  DataArray (["lon"; "lat"; "lead"] ++ if extra then ["level"] else [])
    ([lonc; latc; Coord "lead" None ["lead"] (CTimedelta [0; 1; 2])] ++ if extra then [Coord "level" None ["level"] (CReal [0; 1]%Q)] else [])
    (NdArray ([2; 2; 3] ++ if extra then [2] else []) (fun _ => Some 0%Q)).
Theorem C105_durations_refuted : (forall b, da_ok (lead b)) /\ (exists x, xgrid3 (fun l => l) (lead false) true true = Ok x /\ xg_time x = Some "lead") /\
  exists w, xgrid4 (fun l => l) (lead true) true true = Throw w.
Proof.
  split; [intros []; (split; [|split; [reflexivity|]]); cbn; repeat constructor; cbn; intuition discriminate|].
  split; [eexists; split; [vm_compute; reflexivity|reflexivity]|]. eexists. vm_compute. reflexivity.
Qed.
Print Assumptions C105_durations_refuted.
