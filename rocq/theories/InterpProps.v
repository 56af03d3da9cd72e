(** Theorems about the one-dimensional interpolators (properties C48 to C51, C62, C63). *)
From Verif Require Import Base BaseProofs InterpModel InterpSpec Interp1dModel Interp1dSpec InterpProofs InterpProofs2 InterpProofs3 InterpProofs4 InterpProofs5 InterpProofs6 InterpProofs7.
Open Scope nat_scope.

Lemma in_cell_eq : forall xa x y i, (x == y)%Q -> in_cell xa x i -> in_cell xa y i.
Proof. intros xa x y i E (A & B & C). split; [exact A|]. rewrite <- E. split; [exact B|]. destruct C as [C|[C1 C2]]; [left; exact C|right; split; [exact C1|exact C2]]. Qed.
Lemma cell_two : forall m xa ya x i, data m xa ya -> in_cell xa x i -> (0 < at_ xa (S i) - at_ xa i)%Q.
Proof. intros m xa ya x i (L & N & I) C. apply (cell_step xa x i I C). Qed.
(** Passing through the data is checked at both ends of every cell. *)
Lemma passes_cells : forall m f xa ya, data m xa ya -> 2 <= length xa ->
  (forall x i, in_cell xa x i -> exists v, f x = Ok (Some v) /\ (x == at_ xa i -> v == at_ ya i)%Q /\ (x == at_ xa (S i) -> v == at_ ya (S i))%Q) -> passes f xa ya.
Proof.
  intros m f xa ya (L & N & I) N2 H i x Hi E. destruct (node_cell xa i I Hi N2) as (j & C & Hj).
  destruct (H x j (in_cell_eq xa _ _ j (Qeq_sym _ _ E) C)) as (v & V & A & B). exists v. split; [exact V|]. destruct Hj as [->|[-> ->]]; [apply B, E|apply A, E].
Qed.

(** * Example data sets, meeting the hypotheses of all the theorems below *)
Definition xs4 : list Q := [0; 1; 3; 4]%Q.
Definition ys4 : list Q := [0; 2; 1; 0]%Q.
Definition xs6 : list Q := [0; 1; 2; 3; 4; 5]%Q.
Definition ys6 : list Q := [0; 1; 4; 2; 5; 0]%Q.
Lemma xs4_data : data 4 xs4 ys4.
Proof. split; [reflexivity|]. split; [cbn; lia|]. intros i Hi. cbn in Hi. do 3 (destruct i as [|i]; [vm_compute; reflexivity|]). lia. Qed.
Lemma xs6_data : data 5 xs6 ys6.
Proof. split; [reflexivity|]. split; [cbn; lia|]. intros i Hi. cbn in Hi. do 5 (destruct i as [|i]; [vm_compute; reflexivity|]). lia. Qed.
Definition one_by_one (from n : nat) : list nat := repeat 1 n.
Definition whole (from n : nat) : list nat := [n].
Lemma one_by_one_all : all_cells one_by_one.
Proof. intros f n. unfold one_by_one. induction n as [|n IH]; [reflexivity|]. cbn [repeat list_sum fold_right]. fold (list_sum (repeat 1 n)). lia. Qed.
Lemma whole_all : all_cells whole.
Proof. intros f n. cbn. lia. Qed.
(** An object used on six points, then asked about four. *)
Definition used_on (pk : nat -> nat -> list nat) (o : interpolator) (xa ya : list Q) : interpolator :=
  match compute_coefficients pk o xa ya with Ok o' => o' | _ => o end.
Lemma used_on_used : forall pk kind o0 xa ya o1, factory_1d kind = Ok o0 -> increasing xa -> compute_coefficients pk o0 xa ya = Ok o1 -> used pk kind any_size (used_on pk o0 xa ya).
Proof. intros pk kind o0 xa ya o1 F I E. unfold used_on. rewrite E. eapply used_again; [apply used_new; exact F|exact I|exact Logic.I|exact E]. Qed.

(** * C48 the interpolants pass through the data *)
Theorem C48_linear : forall pk s o xa ya, used pk "linear" s o -> data 2 xa ya -> passes (value pk o xa ya) xa ya.
Proof.
  intros pk s o xa ya U D. apply (passes_cells 2); [exact D|apply D|]. intros x i C. rewrite (proj1 (value_linear pk s o xa ya x U)).
  destruct (linear_cell xa ya x i D C) as [-> _]. eexists. split; [reflexivity|]. pose proof (cell_two 2 xa ya x i D C) as P. split; intro E; rewrite E; [ring|]. unfold chord. field. lra.
Qed.
Print Assumptions C48_linear.
Theorem C48_steffen : forall pk s o xa ya, used pk "steffen" s o -> data 3 xa ya -> passes (value pk o xa ya) xa ya.
Proof.
  intros pk s o xa ya U D. apply (passes_cells 3); [exact D|destruct D as (_ & N & _); lia|]. intros x i C.
  destruct (value_steffen pk s o xa ya x i U D C) as (v & v' & E & _ & H & _). exists v. split; [exact E|]. pose proof (cell_two 3 xa ya x i D C) as P.
  split; intro Ex; rewrite H, Ex; apply hermite_ends; exact P.
Qed.
Print Assumptions C48_steffen.
Lemma spline_passes : forall xa ya X, increasing xa -> smooth_spline xa ya (piece xa ya X) -> forall i x, S i < length xa ->
  (x == at_ xa i -> cubic (at_ xa i) (piece xa ya X i) x == at_ ya i)%Q /\ (x == at_ xa (S i) -> cubic (at_ xa i) (piece xa ya X i) x == at_ ya (S i))%Q.
Proof.
  intros xa ya X I [H _] i x Hi. destruct (H i Hi) as [A B]. split; intro E; [rewrite <- A|rewrite <- B]; unfold cubic, piece; rewrite E; reflexivity.
Qed.
Lemma natural_smooth : forall xa ya, data 4 xa ya -> smooth_spline xa ya (piece xa ya (moment xa ya)).
Proof. intros xa ya (L & N & I). apply pieces_smooth; [exact I|]. apply moments_solve; auto. Qed.
Lemma periodic_smooth : forall xa ya, data 4 xa ya -> smooth_spline xa ya (piece xa ya (pmoment xa ya)).
Proof. intros xa ya (L & N & I). apply pieces_smooth; [exact I|]. apply pmoments_solve; auto. Qed.
Theorem C48_cspline : forall pk s o xa ya, used pk "c_spline" s o -> data 4 xa ya -> passes (value pk o xa ya) xa ya.
Proof.
  intros pk s o xa ya U D. apply (passes_cells 4); [exact D|destruct D as (_ & N & _); lia|]. intros x i C.
  destruct (value_cspline pk s o xa ya U D x) as [_ H]. destruct (H i C) as (v & v' & E & _ & Hv & _). exists v. split; [exact E|]. rewrite Hv.
  apply spline_passes; [apply D|apply natural_smooth; exact D|apply C].
Qed.
Print Assumptions C48_cspline.
(** The periodic spline, on four points or more, when the object was never called with more
    points. *)
Theorem C48_cspline_periodic_partial : forall pk o xa ya, used pk "c_spline_periodic" (fun n => n <= length xa) o -> data 4 xa ya -> passes (value pk o xa ya) xa ya.
Proof.
  intros pk o xa ya U D. apply (passes_cells 4); [exact D|destruct D as (_ & N & _); lia|]. intros x i C.
  destruct (value_pspline pk (length xa) o xa ya U D eq_refl x) as [_ H]. destruct (H i C) as (v & v' & E & _ & Hv & _). exists v. split; [exact E|]. rewrite Hv.
  apply spline_passes; [apply D|apply periodic_smooth; exact D|apply C].
Qed.
Print Assumptions C48_cspline_periodic_partial.
(** Three points (the class asks for two at least): a matrix is read outside its bounds. *)
Theorem C48_cspline_periodic_three_refuted : forall pk x0 x1 x2 y0 y1 y2 x, (x0 < x1)%Q -> (x1 < x2)%Q ->
  value pk (ICSplinePeriodic pspline_init) [x0; x1; x2]%Q [y0; y1; y2]%Q x = UB "A_(size_m2, -1)".
Proof.
  intros pk x0 x1 x2 y0 y1 y2 x H1 H2. assert (N : Qeq_bool (2 * (x1 - x0 + (x2 - x1)))%Q 0 = false).
  { destruct (Qeq_bool _ _) eqn:E; [|reflexivity]. apply Qeq_bool_eq in E. lra. }
  unfold value. cbn [compute_coefficients]. unfold pspline_compute. cbn -[Qminus Qplus Qmult Qdiv inverse_or_0 odiv]. unfold odiv. 
  unfold pspline_row, solve_cyclic. cbn -[Qminus Qplus Qmult Qdiv inverse_or_0 Qeq_bool]. rewrite N. cbn. rewrite ?N. reflexivity.
Qed.
Print Assumptions C48_cspline_periodic_three_refuted.
(** Akima: between nodes [i] and [i + 1] the code uses the slope of two cells before: the
    value at node [i + 1] is [y(i) + h(i) * line(i)], the line [i] being the data slope over
    cell [i - 2] (from the third cell on), extrapolated or wrapped for the first two. *)
Theorem C48_akima_node_value_partial : forall pk s per o xa ya i x, used pk (if per : bool then "akima_periodic" else "akima")%string s o -> data 5 xa ya ->
  S i < length xa -> (x == at_ xa (S i))%Q ->
  exists v, value pk o xa ya x = Ok (Some v) /\ (v == at_ ya i + (at_ xa (S i) - at_ xa i) * akima_line per xa ya i)%Q /\
    (2 <= i -> (v == at_ ya i + (at_ xa (S i) - at_ xa i) * chord xa ya (i - 2))%Q).
Proof.
  intros pk s per o xa ya i x U D Hi Ex. assert (C : in_cell xa x i).
  { split; [exact Hi|]. rewrite Ex. split; [apply Qle_refl|]. left. apply D. exact Hi. }
  destruct (value_akima pk s per o xa ya U D x) as [_ H]. destruct (H i C) as (v & v' & E & _ & Hv & _). exists v. split; [exact E|].
  assert (V : (v == at_ ya i + (at_ xa (S i) - at_ xa i) * akima_line per xa ya i)%Q). { rewrite Hv, Ex. apply hermite_ends. apply (cell_two 5 xa ya x i D C). }
  split; [exact V|]. intro H2. rewrite V. unfold akima_line. destruct (Nat.eqb_spec i 0); [lia|]. destruct (Nat.eqb_spec i 1); [lia|]. destruct (Nat.leb_spec i (length xa)); [|lia]. reflexivity.
Qed.
Print Assumptions C48_akima_node_value_partial.
(** It passes through the data when they are on a line ... *)
Theorem C48_akima_line_partial : forall pk s per o xa ya a b x, used pk (if per : bool then "akima_periodic" else "akima")%string s o -> data 5 xa ya -> on_line a b xa ya ->
  ~ outside xa x -> exists v v', value pk o xa ya x = Ok (Some v) /\ (v == a + b * x)%Q /\ derivative pk o xa ya x = Ok (Some v') /\ (v' == b)%Q.
Proof.
  intros pk s per o xa ya a b x U D O No. pose proof D as (L & N & I). destruct (cell_exists xa x I ltac:(lia)) as [Out|(i & C)]; [tauto|].
  destruct (value_akima pk s per o xa ya U D x) as [_ H]. destruct (H i C) as (v & v' & E & E' & Hv & Hv'). exists v, v'. pose proof (cell_two 5 xa ya x i D C) as P.
  split; [exact E|]. split; [|split; [exact E'|]].
  - rewrite Hv. rewrite !(akima_slope_line per a b xa ya _ D O), (akima_line_line per a b xa ya _ D O), (O i) by (destruct C; lia). unfold hermite. field. lra.
  - rewrite Hv'. rewrite !(akima_slope_line per a b xa ya _ D O), (akima_line_line per a b xa ya _ D O). unfold hermite'. field. lra.
Qed.
Print Assumptions C48_akima_line_partial.
(** ... but not in general. *)
Theorem C48_akima_refuted : forall pk per, exists o xa ya, factory_1d (if per : bool then "akima_periodic" else "akima")%string = Ok o /\ data 5 xa ya /\ ~ passes (value pk o xa ya) xa ya.
Proof.
  intros pk per. exists (if per then IAkimaPeriodic akima_init else IAkima akima_init), xs6, ys6. split; [destruct per; reflexivity|]. split; [exact xs6_data|]. intro P.
  destruct (P 3 3%Q ltac:(cbn; lia) ltac:(reflexivity)) as (v & E & V).
  destruct (C48_akima_node_value_partial pk any_size per (if per then IAkimaPeriodic akima_init else IAkima akima_init) xs6 ys6 2 3%Q) as (w & E' & W & _);
    [destruct per; apply used_new; reflexivity|exact xs6_data|cbn; lia|reflexivity|].
  rewrite E in E'. injection E' as <-. rewrite V in W. destruct per; vm_compute in W; discriminate.
Qed.
Print Assumptions C48_akima_refuted.
(** Polynomial: the first two nodes are always hit. *)
Theorem C48_polynomial_first_two_partial : forall pk s o xa ya, all_cells pk -> used pk "polynomial" s o -> data 3 xa ya ->
  forall i x, i < 2 -> (x == at_ xa i)%Q -> exists v, value pk o xa ya x = Ok (Some v) /\ (v == at_ ya i)%Q.
Proof.
  intros pk s o xa ya P U D i x Hi Ex. pose proof D as (L & N & I). apply used_polynomial in U as (w0 & ->).
  destruct (poly_values pk w0 xa ya P D) as (w & W & E & R & W0 & W1). destruct (node_cell xa i I ltac:(lia) ltac:(lia)) as (j & C & _). apply (in_cell_eq xa _ _ j (Qeq_sym _ _ Ex)) in C.
  unfold value. cbn [compute_coefficients]. rewrite E. cbn [obind interpolate_]. rewrite (poly_eval w xa ya x W j ltac:(lia) I R C). eexists. split; [reflexivity|].
  rewrite horner_two, horner_three, W0, W1 by lia. generalize (horner W xa x (length xa - 3)). intro Y. rewrite Ex. pose proof (I 0 ltac:(lia)). destruct i as [|[|i]]; [ring| |lia]. unfold chord. field. lra.
Qed.
Print Assumptions C48_polynomial_first_two_partial.
(** With three points the third one is hit only when the three are on a line. *)
Theorem C48_polynomial_refuted : forall pk s o xa ya x, all_cells pk -> used pk "polynomial" s o -> data 3 xa ya -> length xa = 3 -> (x == at_ xa 2)%Q ->
  exists v, value pk o xa ya x = Ok (Some v) /\ ((v == at_ ya 2)%Q <-> (chord xa ya 0 == chord xa ya 1)%Q).
Proof.
  intros pk s o xa ya x P U D N3 Ex. pose proof D as (L & N & I). apply used_polynomial in U as (w0 & ->).
  destruct (poly_values pk w0 xa ya P D) as (w & W & E & R & W0 & W1). destruct (node_cell xa 2 I ltac:(lia) ltac:(lia)) as (j & C & _). apply (in_cell_eq xa _ _ j (Qeq_sym _ _ Ex)) in C.
  assert (W2 : (W 2%nat == (chord xa ya 1 - chord xa ya 0) / (at_ xa 2 - at_ xa 1))%Q).
  { clear C. pose proof (I 0 ltac:(lia)) as I0. pose proof (I 1 ltac:(lia)) as I1. specialize (R 2 ltac:(lia)). revert E R. unfold poly_compute, polynomial_min_size. rewrite (check_ok 3 xa ya D). cbn [obind]. rewrite N3.
    set (u := if bsize w0 <? 3 then _ else w0). assert (Zu : 3 <= bsize u). { unfold u. destruct (Nat.ltb_spec (bsize w0) 3); cbn; lia. } clearbody u.
    cbn [Nat.sub ofor]. unfold poly_first. cbn [Nat.sub]. rewrite !oat_ok by lia. cbn [obind]. rewrite !odiv_ok by lra. 
    destruct (bwrite_ok u 0 (at_ ya 0) ltac:(lia)) as (u1 & -> & Z1 & R1 & O1). cbn [obind].
    match goal with |- context [bwrite u1 ?j ?v] => destruct (bwrite_ok u1 j v ltac:(lia)) as (u2 & -> & Z2 & R2 & O2) end. cbn [obind].
    match goal with |- context [bwrite u2 ?j ?v] => destruct (bwrite_ok u2 j v ltac:(lia)) as (u3 & -> & Z3 & R3 & O3) end. cbn [obind].
    intros E R. apply obind_inv in E as (w' & E & Ew). injection Ew as ->.
    assert (G : forall plan k t, 2 <= k -> k + list_sum plan = 3 -> 3 <= bsize t -> bread t 1 = Ok (chord xa ya 0) -> (k = 2 -> bread t 2 = Ok (chord xa ya 1)) ->
       forall t', poly_segment xa plan k t = Ok t' -> k = 2 -> bread t' 2 = Ok ((chord xa ya 1 - chord xa ya 0) / (at_ xa 2 - at_ xa 1))%Q).
    { induction plan as [|len plan IH]; intros k t Hk Hsum Zt Rt1 Rt2 t' Et ->; cbn in Hsum; [lia|]. fold (list_sum plan) in Hsum. cbn [poly_segment] in Et.
      destruct len as [|len].
      - cbn [ofor obind] in Et. apply (IH 2 t); auto; lia.
      - assert (len = 0 /\ list_sum plan = 0) as [-> Hp] by lia. cbn [ofor] in Et. unfold poly_packet in Et. rewrite (Rt2 eq_refl) in Et. cbn [obind Nat.sub] in Et. rewrite Rt1 in Et. cbn [obind] in Et.
        rewrite !oat_ok in Et by lia. cbn [obind] in Et. rewrite odiv_ok in Et by lra. cbn [obind] in Et.
        match type of Et with context [bwrite t ?j ?v] => destruct (bwrite_ok t j v ltac:(lia)) as (t2 & Et2 & Zt2 & Rt2' & Ot2) end. rewrite Et2 in Et. cbn [obind] in Et.
        assert (K : forall plan k t t', list_sum plan = 0 -> poly_segment xa plan k t = Ok t' -> t' = t).
        { clear. induction plan as [|l p IHp]; intros k t t' Hs Et; cbn in *; [congruence|]. assert (l = 0) by lia. subst l. cbn in Et. eapply IHp; [|exact Et]. unfold list_sum. lia. }
        apply K in Et; [|exact Hp]. subst t'. exact Rt2'. }
    assert (B : bread w 2 = Ok ((chord xa ya 1 - chord xa ya 0) / (at_ xa 2 - at_ xa 1))%Q).
    { eapply (G (pk 2 1) 2 u3); [lia|rewrite P; lia|lia| | |exact E|reflexivity].
      - rewrite O3 by lia. rewrite R2. reflexivity.
      - intros _. rewrite R3. reflexivity. }
    rewrite B in R. injection R as <-. reflexivity. }
  unfold value. cbn [compute_coefficients]. rewrite E. cbn [obind interpolate_]. rewrite (poly_eval w xa ya x W j ltac:(lia) I R C). eexists. split; [reflexivity|].
  rewrite horner_two, horner_three, W0, W1 by lia. rewrite N3. cbn [Nat.sub horner]. rewrite N3. cbn [Nat.sub]. rewrite W2, Ex.
  pose proof (I 0 ltac:(lia)) as I0. pose proof (I 1 ltac:(lia)) as I1. 
  assert (Y1 : (at_ ya 1 == at_ ya 0 + (at_ xa 1 - at_ xa 0) * chord xa ya 0)%Q) by (unfold chord; field; lra).
  assert (Y2 : (at_ ya 2 == at_ ya 1 + (at_ xa 2 - at_ xa 1) * chord xa ya 1)%Q) by (unfold chord; field; lra).
  assert (V : (at_ ya 0 + (at_ xa 2 - at_ xa 0) * (chord xa ya 0 + (at_ xa 2 - at_ xa 1) * ((chord xa ya 1 - chord xa ya 0) / (at_ xa 2 - at_ xa 1))) == at_ ya 0 + (at_ xa 2 - at_ xa 0) * chord xa ya 1)%Q) by (field; lra).
  rewrite V, Y2, Y1. set (c0 := chord xa ya 0). set (c1 := chord xa ya 1). split; intro H; [|rewrite H; ring].
  assert (Z : ((at_ xa 1 - at_ xa 0) * (c1 - c0) == 0)%Q) by lra. apply Qmult_integral in Z as [Z|Z]; lra.
Qed.
Print Assumptions C48_polynomial_refuted.
(** On a line it is exact when the vectorised loop reads every cell before writing any ... *)
Theorem C48_polynomial_line_partial : forall pk s o xa ya a b x, (forall from n, pk from n = [n]) -> used pk "polynomial" s o -> data 3 xa ya -> on_line a b xa ya ->
  ~ outside xa x -> exists v, value pk o xa ya x = Ok (Some v) /\ (v == a + b * x)%Q.
Proof.
  intros pk s o xa ya a b x P U D O No. pose proof D as (L & N & I). apply used_polynomial in U as (w0 & ->). destruct (cell_exists xa x I ltac:(lia)) as [Out|(i & C)]; [tauto|].
  destruct (poly_lines pk w0 a b xa ya P D O) as (w & W & E & R & W0 & W1 & W2).
  unfold value. cbn [compute_coefficients]. rewrite E. cbn [obind interpolate_]. rewrite (poly_eval w xa ya x W i ltac:(lia) I R C). eexists. split; [reflexivity|].
  rewrite horner_two, horner_three, W0, W1 by lia. rewrite (horner_zero W xa x _ N W2) by lia. rewrite (O 0) by lia. ring.
Qed.
Print Assumptions C48_polynomial_line_partial.
(** ... and wrong otherwise (here the cells are treated one by one). *)
Theorem C48_polynomial_line_refuted : exists pk o xa ya, all_cells pk /\ factory_1d "polynomial" = Ok o /\ data 3 xa ya /\ on_line 0 1 xa ya /\ ~ passes (value pk o xa ya) xa ya.
Proof.
  exists one_by_one, (IPolynomial bempty), xs6, xs6. split; [apply one_by_one_all|]. split; [reflexivity|]. split; [split; [reflexivity|]; split; [cbn; lia|apply xs6_data]|].
  split; [intros i _; ring|]. intro P. destruct (P 3 3%Q ltac:(cbn; lia) ltac:(reflexivity)) as (v & E & V). vm_compute in E. injection E as <-. vm_compute in V. discriminate.
Qed.
Print Assumptions C48_polynomial_line_refuted.
(** Outside the data the result is undefined (NaN); two kinds throw instead. *)
Theorem C48_outside : forall pk s kind o xa ya x, In kind ["linear"; "steffen"; "c_spline"]%string -> used pk kind s o -> data 4 xa ya -> outside xa x ->
  value pk o xa ya x = Ok None /\ derivative pk o xa ya x = Ok None.
Proof.
  intros pk s kind o xa ya x K U D O. pose proof D as (L & N & I). destruct K as [<-|[<-|[<-|[]]]].
  - destruct (value_linear pk s o xa ya x U) as [-> ->]. unfold linear, linear_derivative, linear_interp, linear_deriv. rewrite check_ok by (unfold linear_min_size; split; [exact L|]; split; [lia|exact I]). cbn [obind].
    rewrite (search_outside xa x I ltac:(lia) O). auto.
  - apply used_steffen in U as (yp & ->). unfold value, derivative. cbn [compute_coefficients]. destruct (steffen_compute_ok yp xa ya) as (st & -> & _); [split; [exact L|]; split; [lia|exact I]|].
    cbn [obind interpolate_ derivative_]. unfold steffen_interp, steffen_deriv. rewrite (search_outside xa x I ltac:(lia) O). auto.
  - apply (value_cspline pk s o xa ya U D x). exact O.
Qed.
Print Assumptions C48_outside.
Theorem C48_outside_throws_refuted : forall pk s kind o xa ya x, In kind ["akima"; "akima_periodic"; "polynomial"]%string -> all_cells pk -> used pk kind s o -> data 5 xa ya -> outside xa x ->
  value pk o xa ya x = Throw "NaN" /\ derivative pk o xa ya x = Throw "NaN".
Proof.
  intros pk s kind o xa ya x K P U D O. pose proof D as (L & N & I). destruct K as [<-|[<-|[<-|[]]]].
  - apply (value_akima pk s false o xa ya U D x). exact O.
  - apply (value_akima pk s true o xa ya U D x). exact O.
  - apply used_polynomial in U as (w & ->). unfold value, derivative. cbn [compute_coefficients]. destruct (poly_compute_ok pk w xa ya P) as (st & -> & _); [split; [exact L|]; split; [lia|exact I]|].
    cbn [obind interpolate_ derivative_]. unfold poly_interp, poly_deriv. rewrite (search_outside xa x I ltac:(lia) O). auto.
Qed.
Print Assumptions C48_outside_throws_refuted.
Theorem C48_cspline_periodic_outside_partial : forall pk o xa ya x, used pk "c_spline_periodic" (fun n => n <= length xa) o -> data 4 xa ya -> outside xa x ->
  value pk o xa ya x = Ok None /\ derivative pk o xa ya x = Ok None.
Proof. intros pk o xa ya x U D O. apply (value_pspline pk (length xa) o xa ya U D eq_refl x). exact O. Qed.
Print Assumptions C48_cspline_periodic_outside_partial.
(** Two points: the straight line. *)
Theorem C48_cspline_periodic_two_partial : forall pk x0 x1 y0 y1 x, (x0 < x1)%Q -> (x0 <= x <= x1)%Q ->
  exists v, value pk (ICSplinePeriodic pspline_init) [x0; x1] [y0; y1] x = Ok (Some v) /\ (v == y0 + (y1 - y0) / (x1 - x0) * (x - x0))%Q.
Proof.
  intros pk x0 x1 y0 y1 x H [H1 H2]. assert (I : increasing [x0; x1]). { intros i Hi. cbn in Hi. assert (i = 0) by lia. subst i. exact H. }
  assert (Nz : Qeq_bool (x1 - x0)%Q 0 = false). { destruct (Qeq_bool _ _) eqn:E; [|reflexivity]. apply Qeq_bool_eq in E. lra. }
  assert (C : in_cell [x0; x1] x 0). { split; [cbn; lia|]. split; [exact H2|]. destruct (Qlt_le_dec x0 x) as [G|G]; [left; exact G|right; split; [reflexivity|]]. cbn. lra. }
  assert (K : exists st v, pspline_compute pspline_init [x0; x1] [y0; y1] = Ok st /\ bread (psx st) 0 = Ok v /\ bread (psx st) 1 = Ok v /\ (v == 0)%Q).
  { unfold pspline_compute, solve_cyclic. cbn -[Qminus Qplus Qmult Qdiv inverse_or_0 odiv]. unfold odiv. rewrite Nz. cbn -[Qminus Qplus Qmult Qdiv inverse_or_0]. do 2 eexists.
    split; [reflexivity|]. cbn -[Qminus Qplus Qmult Qdiv inverse_or_0]. split; [reflexivity|]. split; [reflexivity|]. field. lra. }
  destruct K as (st & m & E & R0 & R1 & M).
  unfold value. cbn [compute_coefficients]. rewrite E. cbn [obind interpolate_].
  destruct (cspline_eval (psx st) [x0; x1] [y0; y1] (fun _ => m) x 0 eq_refl I) as (v & v' & Ev & _ & Hv & _); [|exact C|].
  - intros k Hk. cbn in Hk. destruct k as [|[|k]]; [exact R0|exact R1|lia].
  - exists v. split; [exact Ev|]. rewrite Hv. unfold cubic, piece. cbn [at_ nth]. rewrite M. field. lra.
Qed.
Print Assumptions C48_cspline_periodic_two_partial.

(** * C49 linear interpolation *)
(** Inside a cell: the point of the chord, hence between the values of the two nodes. *)
Theorem C49_linear : forall pk s o xa ya x i, used pk "linear" s o -> data 2 xa ya -> in_cell xa x i ->
  exists v, value pk o xa ya x = Ok (Some v) /\
    ((v - at_ ya i) * (at_ xa (S i) - at_ xa i) == (at_ ya (S i) - at_ ya i) * (x - at_ xa i))%Q /\
    (Qmin (at_ ya i) (at_ ya (S i)) <= v <= Qmax (at_ ya i) (at_ ya (S i)))%Q.
Proof.
  intros pk s o xa ya x i U D C. rewrite (proj1 (value_linear pk s o xa ya x U)). destruct (linear_cell xa ya x i D C) as [-> _]. eexists. split; [reflexivity|].
  destruct (cell_step xa x i (proj2 (proj2 D)) C) as [[A B] P]. split; [unfold chord; field; lra|]. unfold chord.
  set (t := ((x - at_ xa i) / (at_ xa (S i) - at_ xa i))%Q). assert (T : (0 <= t <= 1)%Q). { unfold t. split; [apply Qle_shift_div_l; lra|apply Qle_shift_div_r; lra]. }
  assert (E : (at_ ya i + (at_ ya (S i) - at_ ya i) / (at_ xa (S i) - at_ xa i) * (x - at_ xa i) == at_ ya i + (at_ ya (S i) - at_ ya i) * t)%Q) by (unfold t; field; lra). rewrite E.
  destruct (Qlt_le_dec (at_ ya i) (at_ ya (S i))) as [G|G].
  - rewrite Q.min_l, Q.max_r by lra. nra.
  - rewrite Q.min_r, Q.max_l by lra. nra.
Qed.
Print Assumptions C49_linear.
(** Every line is reproduced. *)
Theorem C49_exact_on_lines : forall pk s o xa ya a b x, used pk "linear" s o -> data 2 xa ya -> on_line a b xa ya -> ~ outside xa x ->
  exists v v', value pk o xa ya x = Ok (Some v) /\ (v == a + b * x)%Q /\ derivative pk o xa ya x = Ok (Some v') /\ (v' == b)%Q.
Proof.
  intros pk s o xa ya a b x U D O No. pose proof D as (L & N & I). destruct (cell_exists xa x I N) as [Out|(i & C)]; [tauto|].
  destruct (value_linear pk s o xa ya x U) as [-> ->]. destruct (linear_cell xa ya x i D C) as [-> ->]. do 2 eexists. split; [reflexivity|]. destruct C as (Hi & _).
  pose proof (chord_line a b xa ya i I O Hi) as Hc. split; [|split; [reflexivity|exact Hc]]. rewrite Hc, (O i) by lia. ring.
Qed.
Print Assumptions C49_exact_on_lines.
Example C49_ex : data 2 xs4 ys4 /\ used whole "linear" any_size ILinear /\ in_cell xs4 2%Q 1 /\ value whole ILinear xs4 ys4 2%Q = Ok (Some (3 # 2)).
Proof.
  split; [split; [reflexivity|]; split; [cbn; lia|apply xs4_data]|]. split; [apply used_new; reflexivity|]. split; [split; [cbn; lia|]; split; [vm_compute; discriminate|left; reflexivity]|]. reflexivity.
Qed.

(** * C50 Steffen interpolation *)
(** On every cell the interpolant goes monotonically from one node value to the next. *)
Theorem C50_monotone : forall pk s o xa ya i x x', used pk "steffen" s o -> data 3 xa ya -> in_cell xa x i -> in_cell xa x' i -> (x <= x')%Q ->
  exists v v', value pk o xa ya x = Ok (Some v) /\ value pk o xa ya x' = Ok (Some v') /\
    (at_ ya i <= at_ ya (S i) -> at_ ya i <= v /\ v <= v' /\ v' <= at_ ya (S i))%Q /\
    (at_ ya (S i) <= at_ ya i -> at_ ya (S i) <= v' /\ v' <= v /\ v <= at_ ya i)%Q.
Proof.
  intros pk s o xa ya i x x' U D C C' Hx. destruct (value_steffen pk s o xa ya x i U D C) as (v & d & E & _ & H & _). destruct (value_steffen pk s o xa ya x' i U D C') as (v' & d' & E' & _ & H' & _).
  exists v, v'. split; [exact E|]. split; [exact E'|]. pose proof D as (L & N & I). destruct (cell_step xa x i I C) as [[A B] P]. destruct (cell_step xa x' i I C') as [[A' B'] _].
  destruct (steffen_limited xa ya i D ltac:(apply C)) as [L0 L1]. unfold chord in L0, L1.
  set (h := hermite (at_ xa i) (at_ xa (S i)) (at_ ya i) (at_ ya (S i)) (steffen_slope xa ya i) (steffen_slope xa ya (S i))) in *.
  assert (M : forall u u', (at_ xa i <= u)%Q -> (u <= u')%Q -> (u' <= at_ xa (S i))%Q -> ((at_ ya i <= at_ ya (S i) -> h u <= h u') /\ (at_ ya (S i) <= at_ ya i -> h u' <= h u))%Q).
  { intros u u' U1 U2 U3. apply hermite_limited; auto. }
  destruct (hermite_ends (at_ xa i) (at_ xa (S i)) (at_ ya i) (at_ ya (S i)) (steffen_slope xa ya i) (steffen_slope xa ya (S i)) P) as [H0 H1]. fold h in H0, H1.
  destruct (M (at_ xa i) x) as [M1 M1']; try lra. destruct (M x x') as [M2 M2']; try lra. destruct (M x' (at_ xa (S i))) as [M3 M3']; try lra.
Qed.
Print Assumptions C50_monotone.
(** It is the cubic of every cell with Steffen's slopes at the nodes; the derivative at a
    node, seen from both sides, is Steffen's slope. *)
Theorem C50_steffen_slopes : forall pk s o xa ya x i, used pk "steffen" s o -> data 3 xa ya -> in_cell xa x i ->
  exists v v', value pk o xa ya x = Ok (Some v) /\ derivative pk o xa ya x = Ok (Some v') /\
    (v == hermite (at_ xa i) (at_ xa (S i)) (at_ ya i) (at_ ya (S i)) (steffen_slope xa ya i) (steffen_slope xa ya (S i)) x)%Q /\
    (x == at_ xa i -> v' == steffen_slope xa ya i)%Q /\ (x == at_ xa (S i) -> v' == steffen_slope xa ya (S i))%Q.
Proof.
  intros pk s o xa ya x i U D C. destruct (value_steffen pk s o xa ya x i U D C) as (v & v' & E & E' & H & H'). exists v, v'. split; [exact E|]. split; [exact E'|]. split; [exact H|].
  pose proof (cell_two 3 xa ya x i D C) as P. split; intro Ex; rewrite H', Ex; apply hermite'_ends; exact P.
Qed.
Print Assumptions C50_steffen_slopes.
Example C50_ex : exists o v, used whole "steffen" any_size o /\ o <> ISteffen bempty /\ data 3 xs4 ys4 /\ value whole o xs4 ys4 2%Q = Ok (Some v) /\ (v == 41 # 24)%Q.
Proof.
  destruct (steffen_compute_ok bempty xs6 ys6) as (yp & E & R); [split; [reflexivity|]; split; [cbn; lia|apply xs6_data]|].
  assert (U : used whole "steffen" any_size (ISteffen yp)).
  { eapply (used_again whole "steffen" any_size (ISteffen bempty) xs6 ys6); [apply used_new; reflexivity|apply xs6_data|exact Logic.I|]. cbn [compute_coefficients]. rewrite E. reflexivity. }
  assert (D : data 3 xs4 ys4) by (split; [reflexivity|]; split; [cbn; lia|apply xs4_data]).
  destruct (C50_steffen_slopes whole any_size (ISteffen yp) xs4 ys4 2%Q 1 U D) as (v & v' & V & _ & H & _); [split; [cbn; lia|]; split; [vm_compute; discriminate|left; reflexivity]|].
  exists (ISteffen yp), v. split; [exact U|]. split; [|split; [exact D|split; [exact V|rewrite H; vm_compute; reflexivity]]].
  intro F. injection F as ->. specialize (R 0 ltac:(cbn; lia)). discriminate.
Qed.

(** * C51 cubic splines *)
(** The value is a spline: cubic on every cell, through the nodes, with continuous first and
    second derivatives, without curvature at the ends; the derivative is that of the spline.
    The elimination never divides by zero and never reads an unset coefficient, whatever the
    object was used for before. *)
Theorem C51_natural_spline : forall pk s o xa ya, used pk "c_spline" s o -> data 4 xa ya ->
  exists k, smooth_spline xa ya k /\ natural_ends xa k /\
    forall x i, in_cell xa x i -> exists v v', value pk o xa ya x = Ok (Some v) /\ derivative pk o xa ya x = Ok (Some v') /\
      (v == cubic (at_ xa i) (k i) x)%Q /\ (v' == cubic' (at_ xa i) (k i) x)%Q.
Proof.
  intros pk s o xa ya U D. exists (piece xa ya (moment xa ya)). split; [apply natural_smooth; exact D|]. pose proof D as (L & N & I). split.
  - destruct (piece_ends xa ya (moment xa ya) 0 I ltac:(lia)) as (E0 & _). destruct (piece_ends xa ya (moment xa ya) (length xa - 2) I ltac:(lia)) as (_ & E1 & _).
    split; [rewrite E0; reflexivity|]. replace (S (length xa - 2)) with (length xa - 1) in E1 by lia. rewrite E1. unfold moment. destruct (Nat.eqb_spec (length xa - 1) 0); [lia|]. destruct (Nat.eqb_spec (length xa - 1) (length xa - 2 + 1)); [reflexivity|lia].
  - intros x i C. apply (value_cspline pk s o xa ya U D x). exact C.
Qed.
Print Assumptions C51_natural_spline.
(** Periodic spline, when the object was never called with more points: the derivatives also
    match across the ends. *)
Theorem C51_periodic_spline_partial : forall pk o xa ya, used pk "c_spline_periodic" (fun n => n <= length xa) o -> data 4 xa ya ->
  exists k, smooth_spline xa ya k /\ periodic_ends xa k /\
    forall x i, in_cell xa x i -> exists v v', value pk o xa ya x = Ok (Some v) /\ derivative pk o xa ya x = Ok (Some v') /\
      (v == cubic (at_ xa i) (k i) x)%Q /\ (v' == cubic' (at_ xa i) (k i) x)%Q.
Proof.
  intros pk o xa ya U D. exists (piece xa ya (pmoment xa ya)). split; [apply periodic_smooth; exact D|]. pose proof D as (L & N & I). split.
  - destruct (piece_ends xa ya (pmoment xa ya) 0 I ltac:(lia)) as (E0 & _ & F0 & _). destruct (piece_ends xa ya (pmoment xa ya) (length xa - 2) I ltac:(lia)) as (_ & E1 & _ & F1).
    replace (S (length xa - 2)) with (length xa - 1) in * by lia. pose proof (pmoment_period xa ya N) as Pp. pose proof (pmoments_close xa ya I N) as Cl.
    split; [|rewrite E1, E0, Pp; reflexivity]. rewrite F1, F0, Pp. replace (length xa - 1 - 1) with (length xa - 2) in Cl by lia. lra.
  - intros x i C. apply (value_pspline pk (length xa) o xa ya U D eq_refl x). exact C.
Qed.
Print Assumptions C51_periodic_spline_partial.
Example C51_ex : exists o v, used whole "c_spline" any_size o /\ o <> ICSpline cspline_init /\ data 4 xs4 ys4 /\ value whole o xs4 ys4 2%Q = Ok (Some v).
Proof.
  destruct (cspline_compute_ok cspline_init xs6 ys6 (or_introl eq_refl)) as (st & E & Inv & R); [split; [reflexivity|]; split; [cbn; lia|apply xs6_data]|].
  assert (U : used whole "c_spline" any_size (ICSpline st)).
  { eapply (used_again whole "c_spline" any_size (ICSpline cspline_init) xs6 ys6); [apply used_new; reflexivity|apply xs6_data|exact Logic.I|]. cbn [compute_coefficients]. rewrite E. reflexivity. }
  destruct (C51_natural_spline whole any_size (ICSpline st) xs4 ys4 U xs4_data) as (k & _ & _ & H).
  destruct (H 2%Q 1) as (v & v' & V & _); [split; [cbn; lia|]; split; [vm_compute; discriminate|left; reflexivity]|].
  exists (ICSpline st), v. split; [exact U|]. split; [|split; [exact xs4_data|exact V]]. intro F. injection F as ->. specialize (R 0 ltac:(cbn; lia)). discriminate.
Qed.
