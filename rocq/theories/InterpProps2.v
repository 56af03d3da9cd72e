(** Theorems about interpolator objects used several times and about derivatives
    (properties C62 and C64). *)
From Verif Require Import Base BaseProofs InterpModel InterpSpec Interp1dModel Interp1dSpec InterpProofs InterpProofs2 InterpProofs3 InterpProofs4 InterpProofs5 InterpProofs6 InterpProofs7 InterpProps.
Open Scope nat_scope.

(** * C62 results do not depend on earlier calls *)
Theorem C62_history_independent_partial : forall pk kind s o o0 xa ya x, all_cells pk -> kind <> "c_spline_periodic"%string ->
  used pk kind s o -> factory_1d kind = Ok o0 -> increasing xa ->
  value pk o xa ya x = value pk o0 xa ya x /\ derivative pk o xa ya x = derivative pk o0 xa ya x.
Proof. intros pk kind s o o0 xa ya x P K U F I. eapply used_same; eauto. Qed.
Print Assumptions C62_history_independent_partial.
(** The periodic spline: only when no earlier call had more points. *)
Theorem C62_periodic_spline_partial : forall pk o o0 xa ya x, used pk "c_spline_periodic" (fun n => n <= length xa) o -> factory_1d "c_spline_periodic" = Ok o0 -> data 4 xa ya ->
  value pk o xa ya x = value pk o0 xa ya x /\ derivative pk o xa ya x = derivative pk o0 xa ya x.
Proof. intros. apply pspline_same; auto. Qed.
Print Assumptions C62_periodic_spline_partial.
(** After a call on six points the answer for four points is another one, and no longer
    passes through the data. *)
Theorem C62_periodic_spline_refuted : exists pk o xa ya x v v0, used pk "c_spline_periodic" any_size o /\ data 4 xa ya /\
  value pk o xa ya x = Ok (Some v) /\ value pk (ICSplinePeriodic pspline_init) xa ya x = Ok (Some v0) /\ ~ (v == v0)%Q.
Proof.
  exists whole, (used_on whole (ICSplinePeriodic pspline_init) xs6 ys6), [0; 1; 2; 3]%Q, [0; 1; 2; 0]%Q, (1 # 2)%Q.
  assert (E : exists o1, compute_coefficients whole (ICSplinePeriodic pspline_init) xs6 ys6 = Ok o1).
  { cbn [compute_coefficients]. destruct (pspline_compute_ok pspline_init xs6 ys6 (or_introl eq_refl)) as (st & -> & _); [cbn; lia|split; [reflexivity|]; split; [cbn; lia|apply xs6_data]|]. eexists. reflexivity. }
  destruct E as (o1 & E).
  assert (V : exists v, value whole (used_on whole (ICSplinePeriodic pspline_init) xs6 ys6) [0; 1; 2; 3]%Q [0; 1; 2; 0]%Q (1 # 2)%Q = Ok (Some v) /\ (v == - 5 # 88)%Q).
  { unfold used_on. clear. vm_compute. eexists. split; reflexivity. }
  assert (V0 : exists v, value whole (ICSplinePeriodic pspline_init) [0; 1; 2; 3]%Q [0; 1; 2; 0]%Q (1 # 2)%Q = Ok (Some v) /\ (v == 1 # 8)%Q).
  { clear. vm_compute. eexists. split; reflexivity. }
  destruct V as (v & V & Ev), V0 as (v0 & V0 & Ev0). exists v, v0. split; [eapply used_on_used; [reflexivity|apply xs6_data|exact E]|].
  split; [split; [reflexivity|]; split; [cbn; lia|]; intros i Hi; cbn in Hi; do 3 (destruct i as [|i]; [vm_compute; reflexivity|]); lia|].
  split; [exact V|]. split; [exact V0|]. rewrite Ev, Ev0. vm_compute. discriminate.
Qed.
Print Assumptions C62_periodic_spline_refuted.

(** * C64 derivatives *)
Lemma cubic_taylor : forall x0 x1 k x y, (x0 <= x <= x1)%Q -> (x0 <= y <= x1)%Q ->
  exists K, (forall y, x0 <= y <= x1 -> Qabs (cubic x0 k y - cubic x0 k x - cubic' x0 k x * (y - x)) <= K * ((y - x) * (y - x)))%Q.
Proof.
  intros x0 x1 [[[a b] c] d] x y Hx _. exists (Qabs c + 3 * Qabs d * (x1 - x0))%Q. clear y. intros y Hy.
  assert (E : (cubic x0 (a, b, c, d) y - cubic x0 (a, b, c, d) x - cubic' x0 (a, b, c, d) x * (y - x) == (c + d * ((y - x0) + 2 * (x - x0))) * ((y - x) * (y - x)))%Q) by (unfold cubic, cubic'; ring).
  rewrite E, Qabs_Qmult, (Qabs_pos ((y - x) * (y - x))) by apply Qsq_nonneg. apply Qmult_le_compat_r; [|apply Qsq_nonneg].
  eapply Qle_trans; [apply Qabs_triangle|]. rewrite Qabs_Qmult, (Qabs_pos (y - x0 + 2 * (x - x0))) by lra. pose proof (Qabs_nonneg d). nra.
Qed.
(** Values and derivatives of cubics, cell by cell. *)
Lemma derivative_cells : forall f f' xa (k : nat -> Q * Q * Q * Q), increasing xa ->
  (forall x i, in_cell xa x i -> exists v v', f x = Ok (Some v) /\ f' x = Ok (Some v') /\ (v == cubic (at_ xa i) (k i) x)%Q /\ (v' == cubic' (at_ xa i) (k i) x)%Q) -> derivative_of f f' xa.
Proof.
  intros f f' xa k I H i x C. destruct (H x i C) as (v & v' & E & E' & V & V'). destruct (cell_step xa x i I C) as [B _].
  destruct (cubic_taylor (at_ xa i) (at_ xa (S i)) (k i) x x B B) as (K & HK). exists v, v', K. split; [exact E|]. split; [exact E'|].
  intros y Cy. destruct (H y i Cy) as (w & w' & Ew & _ & W & _). exists w. split; [exact Ew|]. rewrite W, V, V'. apply HK. apply (cell_step xa y i I Cy).
Qed.
Definition hermite_cubic (x0 x1 y0 y1 p0 p1 : Q) : Q * Q * Q * Q :=
  let h := (x1 - x0)%Q in (y0, p0, (3 * ((y1 - y0) / h) - 2 * p0 - p1) / h, (p0 + p1 - 2 * ((y1 - y0) / h)) / (h * h))%Q.
Lemma hermite_is_cubic : forall x0 x1 y0 y1 p0 p1 x, (0 < x1 - x0)%Q ->
  (hermite x0 x1 y0 y1 p0 p1 x == cubic x0 (hermite_cubic x0 x1 y0 y1 p0 p1) x)%Q /\ (hermite' x0 x1 y0 y1 p0 p1 x == cubic' x0 (hermite_cubic x0 x1 y0 y1 p0 p1) x)%Q.
Proof. intros. unfold hermite, hermite', cubic, cubic', hermite_cubic. split; field; lra. Qed.

Theorem C64_linear : forall pk s o xa ya, used pk "linear" s o -> data 2 xa ya -> derivative_of (value pk o xa ya) (derivative pk o xa ya) xa.
Proof.
  intros pk s o xa ya U D. apply (derivative_cells _ _ xa (fun i => (at_ ya i, chord xa ya i, 0, 0)%Q)); [apply D|]. intros x i C.
  destruct (value_linear pk s o xa ya x U) as [-> ->]. destruct (linear_cell xa ya x i D C) as [-> ->]. do 2 eexists. split; [reflexivity|]. split; [reflexivity|]. unfold cubic, cubic'. split; ring.
Qed.
Print Assumptions C64_linear.
Theorem C64_steffen : forall pk s o xa ya, used pk "steffen" s o -> data 3 xa ya -> derivative_of (value pk o xa ya) (derivative pk o xa ya) xa.
Proof.
  intros pk s o xa ya U D. apply (derivative_cells _ _ xa (fun i => hermite_cubic (at_ xa i) (at_ xa (S i)) (at_ ya i) (at_ ya (S i)) (steffen_slope xa ya i) (steffen_slope xa ya (S i)))); [apply D|]. intros x i C.
  destruct (value_steffen pk s o xa ya x i U D C) as (v & v' & E & E' & V & V'). exists v, v'. split; [exact E|]. split; [exact E'|]. pose proof (cell_two 3 xa ya x i D C) as P. rewrite V, V'. apply hermite_is_cubic; exact P.
Qed.
Print Assumptions C64_steffen.
Theorem C64_cspline : forall pk s o xa ya, used pk "c_spline" s o -> data 4 xa ya -> derivative_of (value pk o xa ya) (derivative pk o xa ya) xa.
Proof.
  intros pk s o xa ya U D. destruct (C51_natural_spline pk s o xa ya U D) as (k & _ & _ & H). apply (derivative_cells _ _ xa k); [apply D|exact H].
Qed.
Print Assumptions C64_cspline.
Theorem C64_cspline_periodic_partial : forall pk o xa ya, used pk "c_spline_periodic" (fun n => n <= length xa) o -> data 4 xa ya -> derivative_of (value pk o xa ya) (derivative pk o xa ya) xa.
Proof.
  intros pk o xa ya U D. destruct (C51_periodic_spline_partial pk o xa ya U D) as (k & _ & _ & H). apply (derivative_cells _ _ xa k); [apply D|exact H].
Qed.
Print Assumptions C64_cspline_periodic_partial.
Theorem C64_akima : forall pk s per o xa ya, used pk (if per : bool then "akima_periodic" else "akima")%string s o -> data 5 xa ya -> derivative_of (value pk o xa ya) (derivative pk o xa ya) xa.
Proof.
  intros pk s per o xa ya U D.
  apply (derivative_cells _ _ xa (fun i => hermite_cubic (at_ xa i) (at_ xa (S i)) (at_ ya i) (at_ ya i + (at_ xa (S i) - at_ xa i) * akima_line per xa ya i)%Q (akima_node_slope per xa ya i) (akima_node_slope per xa ya (S i)))); [apply D|]. intros x i C.
  destruct (value_akima pk s per o xa ya U D x) as [_ H]. destruct (H i C) as (v & v' & E & E' & V & V'). exists v, v'. split; [exact E|]. split; [exact E'|]. pose proof (cell_two 5 xa ya x i D C) as P. rewrite V, V'. apply hermite_is_cubic; exact P.
Qed.
Print Assumptions C64_akima.
(** The polynomial one reads a cell it has never set, whatever the data and the point. *)
Theorem C64_polynomial_refuted : forall pk s o xa ya x, all_cells pk -> used pk "polynomial" s o -> data 3 xa ya -> ~ outside xa x ->
  derivative pk o xa ya x = UB "uninitialised cell".
Proof.
  intros pk s o xa ya x P U D No. pose proof D as (L & N & I). apply used_polynomial in U as (w0 & ->). destruct (cell_exists xa x I ltac:(lia)) as [Out|(i & C)]; [tauto|].
  destruct (poly_values pk w0 xa ya P D) as (w & W & E & R & _). unfold derivative. cbn [compute_coefficients]. rewrite E. cbn [obind derivative_].
  unfold poly_deriv. rewrite (search_cell xa x i I C). cbn [obind]. unfold poly_taylor.
  destruct (bwrite_ok (bresize (length xa)) (length xa - 1) 1%Q ltac:(cbn; lia)) as (u & -> & Zu & Ru & Ou). cbn [obind]. rewrite (R 0) by lia. cbn [obind].
  destruct (bwrite_ok (bresize (length xa)) 0 (W 0) ltac:(cbn; lia)) as (c & -> & Zc & Rc & Oc). cbn [obind]. cbn in Zu, Zc.
  replace (length xa - 1) with (S (length xa - 2)) at 1 by lia. cbn [odown]. replace (length xa - 2 + 1) with (length xa - 1) by lia. rewrite Ru. cbn [obind]. rewrite oat_ok by lia. cbn [obind].
  match goal with |- context [bwrite u ?j ?v] => destruct (bwrite_ok u j v ltac:(lia)) as (u1 & -> & Zu1 & Ru1 & Ou1) end. cbn [obind]. replace (length xa - 1 - (length xa - 1)) with 0 by lia. cbn [ofor obind].
  replace (length xa - (length xa - 2)) with 2 by lia. cbn [ofor]. rewrite Nat.sub_diag, Rc. cbn [obind]. rewrite Ru1. cbn [obind]. change (2 - 1) with 1. rewrite (R 1) by lia. cbn [obind].
  match goal with |- context [bwrite c ?j ?v] => destruct (bwrite_ok c j v ltac:(lia)) as (c1 & -> & Zc1 & Rc1 & Oc1) end. cbn [obind].
  replace (S (length xa - 2) - (length xa - 2)) with 1 by lia. rewrite (Oc1 1), (Oc 1) by lia. unfold bread. cbn [bresize bsize bget]. destruct (Nat.ltb_spec 1 (length xa)); [|lia]. reflexivity.
Qed.
Print Assumptions C64_polynomial_refuted.
Example C64_ex : exists v, derivative whole ILinear xs4 ys4 2%Q = Ok (Some v) /\ (v == - 1 # 2)%Q.
Proof. eexists. split; [vm_compute; reflexivity|]. reflexivity. Qed.
