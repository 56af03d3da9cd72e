(** Theorems about the Python grids (C103): the option [increasing_axes]. *)
From Coq Require Import Permutation.
From Verif Require Import Base BaseProofs MathModel AxisModel AxisSpec AxisProofs AxisProofs5
  IntAxisModel IntAxisProofs GridModel GridSpec XarrayModel XarraySpec XarrayProofs.
Open Scope Z_scope.

Lemma turned_z_same : forall flags axes axes', length flags = length axes ->
  Forall2 (fun fz z' => turned (fst fz) (snd fz) z') (combine flags axes) axes' ->
  Forall2 (fun z z' => z_size z' = z_size z /\ z_same z z') axes axes' /\ Forall z_ok axes'.
Proof.
  induction flags as [|f flags IH]; intros [|z axes] axes' L T; cbn [length combine] in *; try discriminate; inversion T as [|? z' ? l Tz Ts]; subst.
  - split; constructor.
  - destruct (IH axes l) as [F K]; [lia|exact Ts|]. destruct Tz as (Kz & S & Sa & _). cbn [fst snd] in *. split; constructor; auto.
Qed.
Lemma deref_in : forall h refs axes z, deref h refs = Ok axes -> In z axes -> In z h.
Proof.
  intros h refs axes z D Hz. apply deref_map in D. assert (X : In (Some z) (map Some axes)) by (apply in_map; exact Hz).
  rewrite <- D in X. apply in_map_iff in X as (r & E & _). apply nth_error_In in E. exact E.
Qed.

(** What a grid built with the option is, in terms of the one built without it. *)
Lemma increased : forall inplace dim h refs a g0 c0, Forall z_reachable h -> (inplace = true -> NoDup refs) ->
  py_grid dim None h refs a = (h, Ok g0) -> view h g0 = Ok c0 ->
  (inplace = false -> Forall copyable (fst (parts c0))) ->
  exists h' g c, py_grid dim (Some (if inplace then "inplace" else "copy")%string) h refs a = (h', Ok g) /\ view h' g = Ok c /\
    Forall ascending_values (fst (parts c)) /\
    same_field (fst (parts c0)) (snd (parts c0)) (fst (parts c)) (snd (parts c)) /\
    preserved inplace refs h h' /\ (inplace = true -> pg_axes g = refs /\ length h' = length h /\ Forall (fun z => z_is_ascending z = true) (fst (parts c))).
Proof.
  intros inplace dim h refs a g0 c0 R N B W C. unfold py_grid in B. cbn [obind] in B.
  assert (B' : (olet _ := view h (PyGrid dim refs a) in Ok (PyGrid dim refs a)) = Ok g0) by (injection B; auto). clear B.
  destruct (view h (PyGrid dim refs a)) as [c1| |] eqn:E; try discriminate. cbn [obind] in B'. injection B' as <-.
  rewrite E in W. injection W as ->. unfold view in E. cbn [pg_dim pg_axes pg_array] in E.
  destruct (deref h refs) as [axes| |] eqn:D; try discriminate. cbn [obind] in E.
  destruct (core_new_parts _ _ _ _ E) as [P F]. rewrite P in *. cbn [fst snd] in *.
  assert (K : Forall z_ok axes).
  { apply Forall_forall. intros z Hz. apply z_reachable_ok. rewrite Forall_forall in R. apply R. apply (deref_in h refs axes z D Hz). }
  assert (Dm := D). apply deref_map in Dm.
  assert (L : length (nd_shape a) = length refs).
  { rewrite F, map_length. apply (f_equal (@length _)) in Dm. rewrite !map_length in Dm. lia. }
  destruct (increase_spec inplace refs h 0 [] a axes Dm K) as (h' & refs' & a' & flags & axes' & Ei & M & Lf & T & As & Fl & S & V & Pr & I).
  { intro X. specialize (C X). rewrite Forall_forall in *. auto. } { exact N. } { exact L. }
  cbn [rev app repeat] in *. apply deref_map in M.
  destruct (turned_z_same flags axes axes' Lf T) as [Sm K'].
  destruct (core_new_cong dim axes axes' a a' c0 Sm S E) as [c Ec].
  assert (Vw : view h' (PyGrid dim refs' a') = Ok c) by (unfold view; cbn [pg_dim pg_axes pg_array]; rewrite M; exact Ec).
  destruct (core_new_parts _ _ _ _ Ec) as [P' F'].
  exists h', (PyGrid dim refs' a'), c. split.
  { unfold py_grid. destruct inplace; cbn [String.eqb Ascii.eqb Bool.eqb]; rewrite Ei; cbn [obind]; rewrite Vw; reflexivity. }
  split; [exact Vw|]. rewrite P'. cbn [fst snd]. split.
  { rewrite Forall_forall in *. intros z Hz. apply ascending_spec; auto. }
  split; [apply (turned_same_field flags axes axes' a a' Lf T K F V)|]. split; [exact Pr|].
  intro X. destruct (I X) as [-> Lh]. auto.
Qed.

(** 'inplace': when the grid can be built without the option and its axes are different objects, it
    can be built with it; then all its axes are ascending, it gives the same values to the same
    coordinates, it keeps the objects of the caller, and the other objects are not modified. *)
Theorem C103_inplace : forall dim h refs a g0 c0, Forall z_reachable h -> NoDup refs ->
  py_grid dim None h refs a = (h, Ok g0) -> view h g0 = Ok c0 ->
  exists h' g c, py_grid dim (Some "inplace"%string) h refs a = (h', Ok g) /\ view h' g = Ok c /\
    Forall ascending_values (fst (parts c)) /\
    same_field (fst (parts c0)) (snd (parts c0)) (fst (parts c)) (snd (parts c)) /\
    pg_axes g = refs /\ length h' = length h /\ (forall r, ~ In r refs -> nth_error h' r = nth_error h r).
Proof.
  intros dim h refs a g0 c0 R N B W.
  destruct (increased true dim h refs a g0 c0 R (fun _ => N) B W) as (h' & g & c & E & V & A & F & P & I); [discriminate|].
  destruct (I eq_refl) as (G & L & _). exists h', g, c. split; [exact E|]. split; [exact V|]. split; [exact A|]. split; [exact F|]. split; [exact G|]. split; [exact L|].
  intros r Nr. destruct (nth_error h r) as [z|] eqn:Er.
  - apply P; [exact Er|right; exact Nr].
  - apply nth_error_None. apply nth_error_None in Er. lia.
Qed.
Print Assumptions C103_inplace.
(** 'copy': the same, even when an object is given twice, and no object of the caller is modified;
    the axes must be restorable from their pickled state. *)
Theorem C103_copy : forall dim h refs a g0 c0, Forall z_reachable h ->
  py_grid dim None h refs a = (h, Ok g0) -> view h g0 = Ok c0 -> Forall copyable (fst (parts c0)) ->
  exists h' g c, py_grid dim (Some "copy"%string) h refs a = (h', Ok g) /\ view h' g = Ok c /\
    Forall ascending_values (fst (parts c)) /\
    same_field (fst (parts c0)) (snd (parts c0)) (fst (parts c)) (snd (parts c)) /\
    (forall r z, nth_error h r = Some z -> nth_error h' r = Some z).
Proof.
  intros dim h refs a g0 c0 R B W C.
  destruct (increased false dim h refs a g0 c0 R ltac:(discriminate) B W (fun _ => C)) as (h' & g & c & E & V & A & F & P & _).
  exists h', g, c. split; [exact E|]. split; [exact V|]. split; [exact A|]. split; [exact F|]. intros r z Er. apply P; [exact Er|left; reflexivity].
Qed.
Print Assumptions C103_copy.
(** Any other word is refused, nothing is modified; without the option nothing is modified. *)
Theorem C103_mode : forall dim h refs a,
  (forall m, m <> "inplace"%string -> m <> "copy"%string -> exists w, py_grid dim (Some m) h refs a = (h, Throw w)) /\
  fst (py_grid dim None h refs a) = h.
Proof.
  intros dim h refs a. split; [|reflexivity]. intros m N1 N2. unfold py_grid.
  destruct (String.eqb_spec m "inplace"); [contradiction|]. destruct (String.eqb_spec m "copy"); [contradiction|]. eexists. reflexivity.
Qed.
(** Ascending axes: the option changes nothing. *)
Theorem C103_ascending : forall (inplace : bool) dim h refs a, (forall r z, In r refs -> nth_error h r = Some z -> z_is_ascending z = true) ->
  (forall r, In r refs -> nth_error h r <> None) ->
  py_grid dim (Some (if inplace then "inplace" else "copy")%string) h refs a = py_grid dim None h refs a.
Proof.
  intros inplace dim h refs a A D. unfold py_grid.
  assert (E : forall todo idx done, (forall r, In r todo -> In r refs) -> increase inplace h idx todo done a = (h, Ok (rev done ++ todo, a))).
  { induction todo as [|r t IH]; intros idx done Hin; cbn [increase]; [rewrite app_nil_r; reflexivity|].
    destruct (nth_error h r) as [z|] eqn:Er; [|exfalso; apply (D r); [apply Hin; left; reflexivity|exact Er]].
    rewrite (A r z) by (auto; apply Hin; left; reflexivity). rewrite IH by (intros q Q; apply Hin; right; exact Q). cbn [rev]. rewrite <- app_assoc. reflexivity. }
  destruct inplace; cbn [String.eqb Ascii.eqb Bool.eqb]; rewrite (E refs 0%nat []) by auto; reflexivity.
Qed.
Print Assumptions C103_ascending.

(** ** What goes wrong with 'inplace' *)
(** The caller's axes are reversed but the caller's array is not: the same call made a second time
    builds a grid on the reversed axes with the array as it was given. *)
Theorem C103_again : forall dim h refs a g0 c0 h' g, Forall z_reachable h -> NoDup refs ->
  py_grid dim None h refs a = (h, Ok g0) -> view h g0 = Ok c0 ->
  py_grid dim (Some "inplace"%string) h refs a = (h', Ok g) ->
  exists g2, py_grid dim (Some "inplace"%string) h' refs a = (h', Ok g2) /\ pg_axes g2 = pg_axes g /\ pg_array g2 = a.
Proof.
  intros dim h refs a g0 c0 h' g R N B W E.
  destruct (increased true dim h refs a g0 c0 R (fun _ => N) B W) as (h1 & g1 & c & E1 & V & A & F & P & I); [discriminate|].
  destruct (I eq_refl) as (G & L & As). rewrite E in E1. injection E1 as <- <-.
  assert (V' := V). unfold view in V'. rewrite G in V'. destruct (deref h' refs) as [axes| |] eqn:D; try discriminate. cbn [obind] in V'.
  destruct (core_new_parts _ _ _ _ V') as [P' F']. rewrite P' in As. cbn [fst] in As. assert (Dm := D). apply deref_map in Dm.
  change "inplace"%string with (if true then "inplace" else "copy")%string. rewrite (C103_ascending true).
  - unfold py_grid. cbn [obind]. unfold view. cbn [pg_dim pg_axes pg_array]. rewrite D. cbn [obind].
    assert (Dd : pg_dim g = dim).
    { unfold py_grid in E. cbn [String.eqb Ascii.eqb Bool.eqb] in E. destruct (increase true h 0 refs [] a) as [hh [[rr aa]| |]]; cbn [obind] in E; try discriminate.
      destruct (view hh (PyGrid dim rr aa)); cbn [obind] in E; try discriminate. injection E as _ <-. reflexivity. }
    rewrite Dd in V'. assert (Sh : nd_shape a = nd_shape (pg_array g)).
    { unfold fits in F'. rewrite F'. unfold py_grid in B. cbn [obind] in B. unfold view in B, W. cbn [pg_dim pg_axes pg_array] in B.
      destruct (deref h refs) as [ax0| |] eqn:D0; cbn [obind] in B; try discriminate. destruct (core_new dim ax0 a) as [c1| |] eqn:E0; cbn [obind] in B; try discriminate.
      destruct (core_new_parts _ _ _ _ E0) as [_ F0]. unfold fits in F0. rewrite F0.
      unfold py_grid in E. cbn [String.eqb Ascii.eqb Bool.eqb] in E.
      assert (K : Forall z_ok ax0). { apply Forall_forall. intros z Hz. apply z_reachable_ok. rewrite Forall_forall in R. apply R. apply (deref_in h refs ax0 z D0 Hz). }
      assert (D0m := D0). apply deref_map in D0m.
      destruct (increase_spec true refs h 0 [] a ax0 D0m K) as (h2 & refs2 & a2 & flags & axes2 & Ei & M & Lf & T & _ & _ & S & _ & _ & I2); [discriminate|auto| |].
      { rewrite F0, map_length. apply (f_equal (@length _)) in D0m. rewrite !map_length in D0m. cbn. lia. }
      rewrite Ei in E. cbn [rev app obind] in E. destruct (I2 eq_refl) as [-> _].
      destruct (view h2 (PyGrid dim refs a2)); cbn [obind] in E; try discriminate. injection E as <- _. apply deref_map in M. rewrite D in M. injection M as <-.
      destruct (turned_z_same flags ax0 axes Lf T) as [Sm _]. clear - Sm. induction Sm as [|z z' l l' [Q _] Sm IH]; [reflexivity|]. cbn [map]. rewrite Q, IH. reflexivity. }
    destruct (core_new_cong dim axes axes (pg_array g) a c) as [c2 Ec2].
    { clear. induction axes as [|z axes IH]; constructor; auto. split; [reflexivity|]. destruct z; cbn [z_same]; auto. }
    { exact Sh. } { exact V'. }
    rewrite Ec2. cbn [obind]. eexists. split; [reflexivity|]. cbn [pg_axes pg_array]. rewrite G. auto.
  - intros r z Hr Er. rewrite Forall_forall in As. apply As. assert (X : In (nth_error h' r) (map (nth_error h') refs)) by (apply in_map; exact Hr).
    rewrite Dm, Er in X. apply in_map_iff in X as (y & Y & Hy). injection Y as <-. exact Hy.
  - intros r Hr Er. assert (X : In (nth_error h' r) (map (nth_error h') refs)) by (apply in_map; exact Hr).
    rewrite Dm, Er in X. apply in_map_iff in X as (y & Y & Hy). discriminate.
Qed.
Print Assumptions C103_again.

Definition xdown : axis := match axis_of_values [2; 1; 0]%Q (1 # 1000000) false with Ok a => a | _ => mk_axis false None CUndef end.
Definition xup : axis := match axis_of_values [0; 1; 2]%Q (1 # 1000000) false with Ok a => a | _ => mk_axis false None CUndef end.
Lemma xdown_reachable : reachable xdown.
Proof. apply (reach_values [2; 1; 0]%Q (1 # 1000000) false); [lra|reflexivity]. Qed.
Lemma xup_reachable : reachable xup.
Proof. apply (reach_values [0; 1; 2]%Q (1 # 1000000) false); [lra|reflexivity]. Qed.
Definition slope : ndarray := NdArray [3; 3] (fun i => match i with [i; j] => Some (inject_Z (i + 10 * j)) | _ => None end).
Ltac at_value := eexists; split; [reflexivity|reflexivity].

Theorem C103_again_refuted : exists h refs a g0 c0 h1 g1 h2 g2 c2, Forall z_reachable h /\ NoDup refs /\
  py_grid 2 None h refs a = (h, Ok g0) /\ view h g0 = Ok c0 /\
  py_grid 2 (Some "inplace"%string) h refs a = (h1, Ok g1) /\
  py_grid 2 (Some "inplace"%string) h1 refs a = (h2, Ok g2) /\ view h2 g2 = Ok c2 /\
  ~ same_field (fst (parts c0)) (snd (parts c0)) (fst (parts c2)) (snd (parts c2)).
Proof.
  exists [ZReal xdown; ZReal xup], [0; 1]%nat, slope. do 7 eexists.
  split; [repeat constructor; [exact xdown_reachable|exact xup_reachable]|].
  split; [repeat constructor; cbn; intuition discriminate|].
  do 5 (split; [reflexivity|]). intros [_ S]. specialize (S [2; 0]%Q [0; 0] [2; 0]).
  assert (X : Some 0%Q = Some 2%Q); [|discriminate]. refine (S _ _).
  - split; [at_value|]. split; [at_value|exact I].
  - split; [at_value|]. split; [at_value|exact I].
Qed.
Print Assumptions C103_again_refuted.
(** The same object given for two dimensions is reversed once, the array twice. *)
Theorem C103_shared_refuted : exists h refs a g0 c0 h1 g1 c1, Forall z_reachable h /\
  py_grid 2 None h refs a = (h, Ok g0) /\ view h g0 = Ok c0 /\
  py_grid 2 (Some "inplace"%string) h refs a = (h1, Ok g1) /\ view h1 g1 = Ok c1 /\
  ~ same_field (fst (parts c0)) (snd (parts c0)) (fst (parts c1)) (snd (parts c1)).
Proof.
  exists [ZReal xdown], [0; 0]%nat, slope. do 5 eexists.
  split; [repeat constructor; exact xdown_reachable|].
  do 4 (split; [reflexivity|]). intros [_ S]. specialize (S [2; 2]%Q [0; 0] [2; 2]).
  assert (X : Some 0%Q = Some 20%Q); [|discriminate]. refine (S _ _).
  - split; [at_value|]. split; [at_value|exact I].
  - split; [at_value|]. split; [at_value|exact I].
Qed.
Print Assumptions C103_shared_refuted.
(** A call that fails leaves the axes of the caller reversed. *)
Theorem C103_error_refuted : exists h refs a h1 w, Forall z_reachable h /\ NoDup refs /\
  py_grid 2 (Some "inplace"%string) h refs a = (h1, Throw w) /\
  exists z z1 v, nth_error h 0 = Some z /\ nth_error h1 0 = Some z1 /\ z_at_index z 0 v /\ ~ z_at_index z1 0 v.
Proof.
  exists [ZReal xdown; ZReal xup], [0; 1]%nat, (NdArray [3; 2] (fun _ => Some 0%Q)). do 2 eexists.
  split; [repeat constructor; [exact xdown_reachable|exact xup_reachable]|].
  split; [repeat constructor; cbn; intuition discriminate|].
  split; [reflexivity|]. do 3 eexists. split; [reflexivity|]. split; [reflexivity|]. split; [reflexivity|]. intro H. discriminate.
Qed.
Print Assumptions C103_error_refuted.
(** A grid refers to the objects of the caller: reversing one in place afterwards changes the axes
    of the grid, not its array. *)
Theorem C103_later_refuted : exists h refs a g c0 c1, Forall z_reachable h /\ NoDup refs /\
  py_grid 2 None h refs a = (h, Ok g) /\ view h g = Ok c0 /\
  (exists z z', nth_error h 0 = Some z /\ z_py_flip true z = Ok z' /\ view (put h 0 z') g = Ok c1) /\
  ~ same_field (fst (parts c0)) (snd (parts c0)) (fst (parts c1)) (snd (parts c1)).
Proof.
  exists [ZReal xdown; ZReal xup], [0; 1]%nat, slope. do 3 eexists.
  split; [repeat constructor; [exact xdown_reachable|exact xup_reachable]|].
  split; [repeat constructor; cbn; intuition discriminate|].
  do 2 (split; [reflexivity|]). split; [do 2 eexists; repeat split; reflexivity|]. intros [_ S]. specialize (S [2; 0]%Q [0; 0] [2; 0]).
  assert (X : Some 0%Q = Some 2%Q); [|discriminate]. refine (S _ _).
  - split; [at_value|]. split; [at_value|exact I].
  - split; [at_value|]. split; [at_value|exact I].
Qed.
Print Assumptions C103_later_refuted.
(** The hypotheses of the positive theorems are met. *)
Theorem C103_ex : exists h refs a g0 c0, Forall z_reachable h /\ NoDup refs /\ py_grid 2 None h refs a = (h, Ok g0) /\ view h g0 = Ok c0 /\
  Forall copyable (fst (parts c0)) /\ ~ Forall ascending_values (fst (parts c0)).
Proof.
  exists [ZReal xdown; ZReal xup], [0; 1]%nat, slope. do 2 eexists.
  split; [repeat constructor; [exact xdown_reachable|exact xup_reachable]|].
  split; [repeat constructor; cbn; intuition discriminate|].
  do 2 (split; [reflexivity|]). split.
  - repeat constructor; cbn; intros; try discriminate; reflexivity.
  - intro F. inversion F as [|? ? A _]; subst. pose proof (A 0 1 _ _ ltac:(lia) eq_refl eq_refl) as X. discriminate.
Qed.
