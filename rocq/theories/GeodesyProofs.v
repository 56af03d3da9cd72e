(** Lemmas about angles and coordinates. *)
From Coq Require Import Reals Ratan Lra Lia Psatz.
From Verif Require Import Base WindowModel WindowProofs RTreeModel GeodesyModel GeodesySpec.
Open Scope R_scope.

(** ** Periodicity *)
Lemma sin_turns : forall x (m : Z), sin (x + 2 * IZR m * PI) = sin x.
Proof.
  intros x m. destruct (Z_le_dec 0 m) as [H|H].
  - rewrite <- (Z2Nat.id m H), <- INR_IZR_INZ. apply sin_period.
  - rewrite <- (sin_period (x + 2 * IZR m * PI) (Z.to_nat (- m))). f_equal. rewrite INR_IZR_INZ, Z2Nat.id by lia. rewrite opp_IZR. ring.
Qed.
Lemma cos_turns : forall x (m : Z), cos (x + 2 * IZR m * PI) = cos x.
Proof.
  intros x m. destruct (Z_le_dec 0 m) as [H|H].
  - rewrite <- (Z2Nat.id m H), <- INR_IZR_INZ. apply cos_period.
  - rewrite <- (cos_period (x + 2 * IZR m * PI) (Z.to_nat (- m))). f_equal. rewrite INR_IZR_INZ, Z2Nat.id by lia. rewrite opp_IZR. ring.
Qed.
Definition turn_sin (j : Z) (a : R) : R := match j with 0%Z => sin a | 1%Z => cos a | 2%Z => - sin a | _ => - cos a end.
Definition turn_cos (j : Z) (a : R) : R := match j with 0%Z => cos a | 1%Z => - sin a | 2%Z => - cos a | _ => sin a end.
Lemma mod4_cases : forall q : Z, ((q mod 4 = 0 \/ q mod 4 = 1 \/ q mod 4 = 2 \/ q mod 4 = 3)%Z).
Proof. intro q. pose proof (Z.mod_pos_bound q 4 ltac:(lia)). lia. Qed.
Lemma quarters : forall a q, sin (a + IZR q * (PI / 2)) = turn_sin (q mod 4) a /\ cos (a + IZR q * (PI / 2)) = turn_cos (q mod 4) a.
Proof.
  intros a q. pose proof (Z.div_mod q 4 ltac:(lia)) as D. set (m := (q / 4)%Z) in *.
  assert (E : forall j : Z, (q mod 4 = j)%Z -> a + IZR q * (PI / 2) = (a + IZR j * (PI / 2)) + 2 * IZR m * PI).
  { intros j J. rewrite D, J, plus_IZR, mult_IZR. field. }
  destruct (mod4_cases q) as [J|[J|[J|J]]]; rewrite (E _ J), sin_turns, cos_turns, J; cbn [turn_sin turn_cos].
  - replace (a + 0 * (PI / 2)) with a by ring. auto.
  - replace (a + 1 * (PI / 2)) with (PI / 2 + a) by ring. split; [symmetry; apply cos_sin|rewrite sin_cos; ring].
  - replace (a + 2 * (PI / 2)) with (a + PI) by field. split; [apply neg_sin|apply neg_cos].
  - replace (a + 3 * (PI / 2)) with ((PI / 2 + a) + PI) by field. rewrite neg_sin, neg_cos. split; [rewrite <- cos_sin; reflexivity|rewrite sin_cos; ring].
Qed.

(** ** The reduction of the argument *)
Lemma quotient_mod4 : forall q : Z, ((to_unsigned (Z.sgn q * (Z.abs q mod 8)) mod 4 = q mod 4)%Z).
Proof.
  intro q. unfold to_unsigned. rewrite <- (Znumtheory.Zmod_div_mod 4 (2 ^ 32)) by (try lia; exists (2 ^ 30)%Z; reflexivity).
  pose proof (Z.div_mod (Z.abs q) 8 ltac:(lia)) as D. set (k := (Z.abs q / 8)%Z) in *. set (r := (Z.abs q mod 8)%Z) in *.
  destruct (Z.lt_trichotomy q 0) as [H|[H|H]].
  - rewrite (proj2 (Z.sgn_neg_iff q) H). replace q with (-1 * r + (-2 * k) * 4)%Z by lia. rewrite Z.mod_add by lia. reflexivity.
  - subst q. reflexivity.
  - rewrite (proj2 (Z.sgn_pos_iff q) H). replace q with (1 * r + (2 * k) * 4)%Z by lia. rewrite Z.mod_add by lia. reflexivity.
Qed.
Lemma quotient1_mod4 : forall q : Z, ((to_unsigned (Z.sgn q * (Z.abs q mod 8) + 1) mod 4 = (q + 1) mod 4)%Z).
Proof.
  intro q. pose proof (quotient_mod4 q) as H. unfold to_unsigned in *. rewrite <- (Znumtheory.Zmod_div_mod 4 (2 ^ 32)) in * by (try lia; exists (2 ^ 30)%Z; reflexivity).
  rewrite <- (Z.add_mod_idemp_l _ 1), H, Z.add_mod_idemp_l by lia. reflexivity.
Qed.
Lemma bits_mod4 : forall q : Z, ((0 <= q)%Z -> (Z.testbit q 0 = Z.testbit (q mod 4) 0 /\ Z.testbit q 1 = Z.testbit (q mod 4) 1)%Z).
Proof. intros q _. change 4%Z with (2 ^ 2)%Z. rewrite !Z.mod_pow2_bits_low by lia. auto. Qed.
Lemma angle_reduced : forall x q, angle_of x = radians (x - IZR q * 90) + IZR q * (PI / 2).
Proof. intros x q. unfold angle_of, radians. field. Qed.

Lemma sincosd_spec : forall x, sincosd x = (sin (angle_of x), cos (angle_of x)).
Proof.
  intro x. unfold sincosd, remquo. set (q := rint_even (x / 90)). rewrite quotient_mod4, (angle_reduced x q). destruct (quarters (radians (x - IZR q * 90)) q) as [S C]. rewrite S, C.
  destruct (mod4_cases q) as [J|[J|[J|J]]]; rewrite J; reflexivity.
Qed.
Lemma sind_spec : forall x, sind x = sin (angle_of x).
Proof.
  intro x. unfold sind, remquo. set (q := rint_even (x / 90)). set (u := to_unsigned _). assert (U : (0 <= u)%Z) by (apply Z.mod_pos_bound; reflexivity). destruct (bits_mod4 u U) as [B0 B1]. rewrite B0, B1. unfold u. rewrite quotient_mod4.
  rewrite (angle_reduced x q). destruct (quarters (radians (x - IZR q * 90)) q) as [S _]. rewrite S. destruct (mod4_cases q) as [J|[J|[J|J]]]; rewrite J; reflexivity.
Qed.
Lemma cosd_spec : forall x, cosd x = cos (angle_of x).
Proof.
  intro x. unfold cosd, remquo. set (q := rint_even (x / 90)). set (u := to_unsigned _). assert (U : (0 <= u)%Z) by (apply Z.mod_pos_bound; reflexivity). destruct (bits_mod4 u U) as [B0 B1]. rewrite B0, B1. unfold u. rewrite quotient1_mod4.
  rewrite (angle_reduced x q). destruct (quarters (radians (x - IZR q * 90)) q) as [_ C]. rewrite C. pose proof (Z.div_mod q 4 ltac:(lia)) as D.
  destruct (mod4_cases q) as [J|[J|[J|J]]]; rewrite <- (Z.add_mod_idemp_l q 1 4) by lia; rewrite J; cbn -[cos sin]; try reflexivity; ring.
Qed.
(** The reduced angle is at most 45 degrees. *)
Lemma rint_even_near : forall x, -1 / 2 <= x - IZR (rint_even x) <= 1 / 2.
Proof.
  intro x. unfold rint_even. destruct (base_Int_part x) as [A B]. set (n := Int_part x) in *. destruct (Rltb (x - IZR n) (1 / 2)) eqn:E; [apply Rltb_true in E; lra|]. apply Rltb_false in E.
  destruct (Rltb (1 / 2) (x - IZR n)) eqn:F; [apply Rltb_true in F; rewrite plus_IZR; lra|]. apply Rltb_false in F. destruct (Z.even n); rewrite ?plus_IZR; lra.
Qed.

(** ** atan2 *)
Lemma angle_degrees : forall a, angle_of (degrees a) = a.
Proof. intro a. unfold angle_of, degrees. field. pose proof PI_RGT_0. lra. Qed.
Lemma degrees_angle : forall d, degrees (angle_of d) = d.
Proof. intro a. unfold angle_of, degrees. field. pose proof PI_RGT_0. lra. Qed.
Lemma angle_plus : forall a b, angle_of (a + b) = angle_of a + angle_of b.
Proof. intros. unfold angle_of. field. Qed.
Lemma angle_minus : forall a b, angle_of (a - b) = angle_of a - angle_of b.
Proof. intros. unfold angle_of. field. Qed.
Lemma angle_180 : angle_of 180 = PI.
Proof. unfold angle_of. field. Qed.
Lemma angle_90 : angle_of 90 = PI / 2.
Proof. unfold angle_of. field. Qed.
Lemma polar : forall x y, 0 < x -> let rho := x * sqrt (1 + (y / x)²) in 0 < rho /\ x = rho * cos (atan (y / x)) /\ y = rho * sin (atan (y / x)).
Proof.
  intros x y X. cbn zeta. assert (P : 0 < sqrt (1 + (y / x)²)) by (apply sqrt_lt_R0; pose proof (Rle_0_sqr (y / x)); lra). split; [apply Rmult_lt_0_compat; assumption|].
  rewrite cos_atan, sin_atan. set (s := sqrt _) in *. split; field; repeat split; lra.
Qed.
Lemma atan_small : forall x y, 0 < x -> Rabs y <= x -> -45 <= degrees (atan (y / x)) <= 45.
Proof.
  intros x y X H. assert (T : -1 <= y / x <= 1).
  { assert (H' : - x <= y <= x) by (unfold Rabs in H; destruct (Rcase_abs y); lra). split; (apply (Rmult_le_reg_r x); [exact X|]); unfold Rdiv; rewrite Rmult_assoc, Rinv_l by lra; lra. }
  pose proof PI_RGT_0 as P. assert (A : - (PI / 4) <= atan (y / x) <= PI / 4).
  { rewrite <- atan_1, <- atan_opp. destruct T as [T1 T2]. split; [destruct T1 as [T1|T1]; [left; apply atan_increasing; exact T1|right; f_equal; exact T1]|destruct T2 as [T2|T2]; [left; apply atan_increasing; exact T2|right; f_equal; exact T2]]. }
  unfold degrees. split; (apply (Rmult_le_reg_r PI); [exact P|]); unfold Rdiv; rewrite Rmult_assoc, Rinv_l by lra; lra.
Qed.
Lemma atan_negative : forall x y, 0 < x -> y < 0 -> degrees (atan (y / x)) < 0.
Proof.
  intros x y X Y. assert (T : y / x < 0) by (unfold Rdiv; assert (0 < / x) by (apply Rinv_0_lt_compat; exact X); nra).
  pose proof (atan_increasing _ _ T) as A. rewrite atan_0 in A. pose proof PI_RGT_0 as P. unfold degrees, Rdiv. assert (0 < / PI) by (apply Rinv_0_lt_compat; exact P). nra.
Qed.
Lemma atan_nonneg : forall x y, 0 < x -> 0 <= y -> 0 <= degrees (atan (y / x)).
Proof.
  intros x y X Y. destruct Y as [Y|Y].
  - assert (T : 0 < y / x) by (apply Rdiv_lt_0_compat; assumption). pose proof (atan_increasing _ _ T) as A. rewrite atan_0 in A. pose proof PI_RGT_0 as P. unfold degrees. apply Rmult_le_pos; [lra|left; apply Rinv_0_lt_compat; exact P].
  - subst y. unfold Rdiv. rewrite Rmult_0_l, atan_0. unfold degrees. rewrite Rmult_0_l. unfold Rdiv. rewrite Rmult_0_l. lra.
Qed.
Lemma atan2d_spec : forall x y, x <> 0 \/ y <> 0 -> direction x y (atan2d y x).
Proof.
  intros x y N. unfold atan2d, direction. destruct (Rltb (Rabs x) (Rabs y)) eqn:S.
  - apply Rltb_true in S. destruct (Rltb y 0) eqn:Y.
    + apply Rltb_true in Y. rewrite (Rabs_left y Y) in S. unfold std_atan2. assert (Z : Reqb (- y) 0 = false) by (apply Reqb_false; lra). rewrite Z. cbn [Z.add Pos.add].
      destruct (polar (- y) x ltac:(lra)) as (P & C & D). pose proof (atan_small (- y) x ltac:(lra) ltac:(lra)) as B. split; [lra|]. eexists. split; [exact P|].
      replace (-90 + degrees (atan (x / - y))) with (degrees (atan (x / - y)) - 90) by ring. rewrite angle_minus, angle_degrees, angle_90. set (al := atan _) in *.
      split; [rewrite cos_minus, cos_PI2, sin_PI2; rewrite D at 1; ring|rewrite sin_minus, cos_PI2, sin_PI2; lra].
    + apply Rltb_false in Y. assert (Y' : 0 < y). { destruct Y as [Y|Y]; [exact Y|subst y; rewrite Rabs_R0 in S; pose proof (Rabs_pos x); lra]. } rewrite (Rabs_right y) in S by lra.
      unfold std_atan2. assert (Z : Reqb y 0 = false) by (apply Reqb_false; lra). rewrite Z.
      destruct (polar y x Y') as (P & C & D). pose proof (atan_small y x Y' ltac:(lra)) as B. split; [lra|]. eexists. split; [exact P|].
      rewrite angle_minus, angle_degrees, angle_90. set (al := atan _) in *. split; [rewrite cos_minus, cos_PI2, sin_PI2; rewrite D at 1; ring|rewrite sin_minus, cos_PI2, sin_PI2; lra].
  - apply Rltb_false in S. destruct (Rltb x 0) eqn:X.
    + apply Rltb_true in X. rewrite (Rabs_left x X) in S. unfold std_atan2. assert (Z : Reqb (- x) 0 = false) by (apply Reqb_false; lra). rewrite Z. cbn [Z.add Pos.add].
      destruct (polar (- x) y ltac:(lra)) as (P & C & D). pose proof (atan_small (- x) y ltac:(lra) S) as B.
      destruct (Rleb 0 y) eqn:Y.
      * apply Rleb_true in Y. pose proof (atan_nonneg (- x) y ltac:(lra) Y). split; [lra|]. eexists. split; [exact P|]. rewrite angle_minus, angle_degrees, angle_180. set (al := atan _) in *. split; [rewrite cos_minus, cos_PI, sin_PI; lra|rewrite sin_minus, cos_PI, sin_PI; lra].
      * apply Rleb_false in Y. pose proof (atan_negative (- x) y ltac:(lra) Y). split; [lra|]. eexists. split; [exact P|]. rewrite angle_minus, angle_degrees. replace (angle_of (-180)) with (- PI) by (unfold angle_of; field). set (al := atan _) in *.
        split; [rewrite cos_minus, cos_neg, sin_neg, cos_PI, sin_PI; lra|rewrite sin_minus, cos_neg, sin_neg, cos_PI, sin_PI; lra].
    + apply Rltb_false in X. assert (X' : 0 < x). { destruct X as [X|X]; [exact X|subst x]. rewrite Rabs_R0 in S. pose proof (Rabs_pos y). destruct N as [N|N]; [exfalso; apply N; reflexivity|]. exfalso. apply N. apply Rle_antisym; apply Rnot_lt_le; intro; [rewrite Rabs_right in S by lra; lra|rewrite Rabs_left in S by lra; lra]. }
      rewrite (Rabs_right x) in S by lra. unfold std_atan2. assert (Z : Reqb x 0 = false) by (apply Reqb_false; lra). rewrite Z.
      destruct (polar x y X') as (P & C & D). pose proof (atan_small x y X' S) as B. split; [lra|]. eexists. split; [exact P|]. rewrite angle_degrees. auto.
Qed.

(** The direction is unique. *)
Lemma cos_one : forall d, - 2 * PI < d < 2 * PI -> cos d = 1 -> d = 0.
Proof.
  intros d D C. replace d with (2 * (d / 2)) in C by field. rewrite cos_2a_sin in C. assert (S : sin (d / 2) = 0) by nra.
  destruct (Rtotal_order d 0) as [H|[H|H]]; [exfalso|exact H|exfalso].
  - assert (0 < sin (- (d / 2))) by (apply sin_gt_0; lra). rewrite sin_neg in *. lra.
  - assert (0 < sin (d / 2)) by (apply sin_gt_0; lra). lra.
Qed.
Lemma direction_unique : forall x y t t', direction x y t -> direction x y t' -> t = t'.
Proof.
  intros x y t t' (B & r & R & X & Y) (B' & r' & R' & X' & Y'). pose proof (sin2_cos2 (angle_of t)) as I. pose proof (sin2_cos2 (angle_of t')) as I'. unfold Rsqr in I, I'.
  set (c := cos (angle_of t)) in *. set (s := sin (angle_of t)) in *. set (c' := cos (angle_of t')) in *. set (s' := sin (angle_of t')) in *.
  assert (Q : r * r = r' * r').
  { transitivity (x * x + y * y); [rewrite X, Y; replace (r * c * (r * c) + r * s * (r * s)) with (r * r * (s * s + c * c)) by ring; rewrite I; ring|rewrite X', Y'; replace (r' * c' * (r' * c') + r' * s' * (r' * s')) with (r' * r' * (s' * s' + c' * c')) by ring; rewrite I'; ring]. }
  assert (E : r = r') by nra. subst r'. assert (EC : c = c') by (apply (Rmult_eq_reg_l r); lra). assert (ES : s = s') by (apply (Rmult_eq_reg_l r); lra).
  assert (C1 : cos (angle_of t - angle_of t') = 1) by (rewrite cos_minus; fold c s c' s'; rewrite <- EC, <- ES; lra).
  pose proof PI_RGT_0 as P. assert (D : angle_of t - angle_of t' = 0).
  { apply cos_one; [|exact C1]. rewrite <- angle_minus. unfold angle_of. split; nra. }
  rewrite <- angle_minus in D. unfold angle_of in D. nra.
Qed.
