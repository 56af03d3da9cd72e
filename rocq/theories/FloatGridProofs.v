(** Lemmas about FloatGridModel.v. *)
From Coq Require Import ZArith Reals Lra Psatz.
From Flocq Require Import Core BinarySingleNaN Plus_error.
From Verif Require Import Base FloatAxisModel FloatAxisProofs FloatAxisProps FloatGridModel.
Open Scope R_scope.

Lemma rnd_valid : Valid_exp (FLT_exp (3 - 1024 - 53) 53). Proof. apply FLT_exp_valid. reflexivity. Qed.
Lemma fmt : forall x : b64, generic_format radix2 (FLT_exp (3 - 1024 - 53) 53) (real x).
Proof. intros x. apply (generic_format_B2R 53 1024). Qed.
Lemma rnd_le : forall x y, x <= y -> rnd x <= rnd y.
Proof. intros x y H. apply round_le; [apply rnd_valid|apply valid_rnd_N|exact H]. Qed.
Lemma rnd_id : forall x : b64, rnd (real x) = real x.
Proof. intros x. apply round_generic; [apply valid_rnd_N|apply fmt]. Qed.
Lemma rnd_0 : rnd 0 = 0. Proof. apply round_0. apply valid_rnd_N. Qed.
Lemma rnd_1 : rnd 1 = 1.
Proof. destruct (of_Z_ok 1) as (_ & E); [discriminate|]. change 1 with (IZR 1). rewrite <- E. apply rnd_id. Qed.

(** The operations give the rounded exact results. *)
Lemma minus_rnd : forall x y, finite x = true -> finite y = true -> Rabs (real x - real y) <= bpow radix2 1000 ->
  finite (b_minus x y) = true /\ real (b_minus x y) = rnd (real x - real y).
Proof.
  intros x y X Y B. pose proof (@Bminus_correct 53 1024 b64_prec b64_emax mode_NE x y X Y) as H.
  cbn [round_mode] in H. rewrite rnd_bound in H by exact B. destruct H as (E & F & _). auto.
Qed.
Lemma plus_rnd : forall x y, finite x = true -> finite y = true -> Rabs (real x + real y) <= bpow radix2 1000 ->
  finite (b_plus x y) = true /\ real (b_plus x y) = rnd (real x + real y).
Proof.
  intros x y X Y B. pose proof (@Bplus_correct 53 1024 b64_prec b64_emax mode_NE x y X Y) as H.
  cbn [round_mode] in H. rewrite rnd_bound in H by exact B. destruct H as (E & F & _). auto.
Qed.
Lemma mult_rnd : forall x y, finite x = true -> finite y = true -> Rabs (real x * real y) <= bpow radix2 1000 ->
  finite (b_mult x y) = true /\ real (b_mult x y) = rnd (real x * real y).
Proof.
  intros x y X Y B. pose proof (@Bmult_correct 53 1024 b64_prec b64_emax mode_NE x y) as H.
  cbn [round_mode] in H. rewrite rnd_bound in H by exact B. destruct H as (E & F & _). split; [|exact E]. unfold b_mult. rewrite F, X, Y. reflexivity.
Qed.
Lemma div_rnd : forall x y, finite x = true -> real y <> 0 -> Rabs (real x / real y) <= bpow radix2 1000 ->
  finite (b_div x y) = true /\ real (b_div x y) = rnd (real x / real y).
Proof.
  intros x y X Y B. pose proof (@Bdiv_correct 53 1024 b64_prec b64_emax mode_NE x y Y) as H.
  cbn [round_mode] in H. rewrite rnd_bound in H by exact B. destruct H as (E & F & _). split; [|exact E]. unfold b_div. rewrite F. exact X.
Qed.
(** The difference of two numbers has the sign of the exact one. *)
Lemma rnd_minus_zero : forall x y : b64, rnd (real x - real y) = 0 -> real x = real y.
Proof.
  intros x y H. unfold Rminus in H. apply round_plus_eq_0 in H; [lra|apply rnd_valid| |apply valid_rnd_N|apply fmt|apply generic_format_opp, fmt].
  apply monotone_exp_not_FTZ; [apply rnd_valid|apply FLT_exp_monotone].
Qed.
Lemma minus_sign : forall x y, finite x = true -> finite y = true -> Rabs (real x - real y) <= bpow radix2 1000 ->
  (b_eqb (b_minus x y) (b_of_Z 0) = true <-> real x = real y) /\ (b_ltb (b_minus x y) (b_of_Z 0) = true <-> real x < real y).
Proof.
  intros x y X Y B. destruct (minus_rnd x y X Y B) as (F & E). destruct (of_Z_ok 0) as (F0 & E0); [discriminate|].
  unfold b_eqb, b_ltb. rewrite (Beqb_correct 53 1024 _ _ F F0), (Bltb_correct 53 1024 _ _ F F0), E, E0. split.
  - destruct (Req_bool_spec (rnd (real x - real y)) 0) as [H|H].
    + apply rnd_minus_zero in H. tauto.
    + split; [discriminate|]. intros Q. exfalso. apply H. rewrite Q, Rminus_eq_0. apply rnd_0.
  - destruct (Rlt_bool_spec (rnd (real x - real y)) 0) as [H|H].
    + split; [intros _|reflexivity]. destruct (Rlt_or_le (real x) (real y)) as [L|L]; [exact L|]. exfalso.
      assert (rnd 0 <= rnd (real x - real y)) by (apply rnd_le; lra). rewrite rnd_0 in H0. lra.
    + split; [discriminate|]. intros L. exfalso.
      assert (rnd (real x - real y) <= rnd 0) by (apply rnd_le; lra). rewrite rnd_0 in H0.
      assert (Q : rnd (real x - real y) = 0) by lra. apply rnd_minus_zero in Q. lra.
Qed.

(** ** Brackets *)
(** [u] between [v] and [w], in any order. *)
Definition between (v u w : R) : Prop := v <= u <= w \/ w <= u <= v.

Lemma find_indexes_ok : forall start stop n h a c, reasonable start stop n h -> f_regular start stop n = Ok a -> finite c = true ->
  between (real (f_value a 0)) (real c) (real (f_value a (n - 1))) ->
  exists i0 i1, f_find_indexes a c = Ok (Some (i0, i1)) /\ (0 <= i0 < n)%Z /\ (0 <= i1 < n)%Z /\ (i1 = i0 + 1 \/ i0 = i1 + 1)%Z /\
    between (real (f_value a i0)) (real c) (real (f_value a i1)) /\
    (forall k, (0 <= k < n)%Z -> real c = real (f_value a k) -> k = i0 \/ k = i1).
Proof.
  intros start stop n h a c G B FC BT. pose proof (widen _ _ _ _ G) as GW. destruct (built _ _ _ _ _ GW B) as (W & ST & SZ & SH).
  pose proof (r_size _ _ _ _ G) as N. change (2 ^ 44)%Z with 17592186044416%Z in N.
  pose proof (step_pos a W) as TP. pose proof (step_nonzero a W) as SNZ. pose proof U_pos as UP.
  set (s := real (f_step a)) in *.
  assert (LI : forall k, (0 <= k < n)%Z -> (Z.abs k <= 2 ^ 46)%Z) by (intros k K; rewrite Z.abs_eq by lia; change (2 ^ 46)%Z with 70368744177664%Z; lia).
  assert (PT : forall k, (0 <= k < n)%Z -> finite (f_value a k) = true /\ exists y, real (f_value a k) = real start + y * s /\ Rabs (y - IZR k) <= / 16).
  { intros k K. destruct (point_ok a k W (LI k K)) as (F & y & E & Y). rewrite ST in E. split; [exact F|]. exists y. auto. }
  set (x := (real c - real start) / s). assert (EC : real c = real start + x * s) by (unfold x; field; exact SNZ).
  (* order of positions *)
  assert (ORD : forall v w, real start + v * s <= real start + w * s -> 0 < s -> v <= w).
  { intros v w H P. apply (Rmult_le_reg_r s); lra. }
  assert (ORD' : forall v w, real start + v * s <= real start + w * s -> s < 0 -> w <= v).
  { intros v w H P. apply (Rmult_le_reg_r (- s)); lra. }
  destruct (PT 0%Z ltac:(lia)) as (_ & y0 & E0 & Y0). destruct (PT (n - 1)%Z ltac:(lia)) as (_ & y1 & E1 & Y1).
  assert (AB : forall v k, Rabs (v - IZR k) <= / 16 -> IZR k - / 16 <= v <= IZR k + / 16).
  { intros v k H. pose proof (Rle_abs (v - IZR k)). pose proof (Rle_abs (- (v - IZR k))). rewrite Rabs_Ropp in H1. lra. }
  apply AB in Y0. apply AB in Y1. assert (N1 : 1 <= IZR (n - 1)) by (apply IZR_le; lia).
  assert (XB : - / 16 <= x <= IZR (n - 1) + / 16).
  { destruct (Rtotal_order s 0) as [P|[P|P]]; [|lra|].
    - destruct BT as [[B1 B2]|[B1 B2]]; rewrite E0, EC in *; rewrite E1 in *; pose proof (ORD' _ _ B1 P); pose proof (ORD' _ _ B2 P); lra.
    - destruct BT as [[B1 B2]|[B1 B2]]; rewrite E0, EC in *; rewrite E1 in *; pose proof (ORD _ _ B1 P); pose proof (ORD _ _ B2 P); lra. }
  assert (NB : IZR (n - 1) <= 17592186044415) by (apply IZR_le; lia).
  assert (XA : Rabs x <= 17592186044416) by (apply Rabs_le; lra).
  destruct (index_ok a c x W FC) as (r & R & D).
  { rewrite ST. exact EC. } { eapply Rle_trans; [exact XA|]. apply IZR_le. discriminate. }
  assert (D' : Rabs (IZR r - x) <= 0.6).
  { eapply Rle_trans; [exact D|]. assert (8 * U * (Rabs x + 1) <= 8 * U * 17592186044417) by (apply Rmult_le_compat_l; lra). rewrite UR in *. lra. }
  assert (DX : x - 0.6 <= IZR r <= x + 0.6).
  { pose proof (Rle_abs (IZR r - x)). pose proof (Rle_abs (- (IZR r - x))). rewrite Rabs_Ropp in H0. lra. }
  assert (RN : (0 <= r < n)%Z).
  { split.
    - assert (-1 < r)%Z; [|lia]. apply lt_IZR. lra.
    - assert (r < n)%Z; [|lia]. apply lt_IZR. rewrite minus_IZR in XB. lra. }
  assert (FI : f_find_index a c false = Ok r).
  { unfold f_find_index. fold (raw a c). rewrite R. cbn [obind]. rewrite SZ. destruct (r <? 0)%Z eqn:Q; [apply Z.ltb_lt in Q; lia|].
    destruct (n <=? r)%Z eqn:Q'; [apply Z.leb_le in Q'; lia|reflexivity]. }
  destruct (PT r RN) as (Fr & yr & Er & Yr). apply AB in Yr.
  assert (BD : Rabs (real c - real (f_value a r)) <= bpow radix2 1000).
  { rewrite EC, Er. replace (real start + x * s - (real start + yr * s)) with ((x - yr) * s) by ring. rewrite Rabs_mult.
    assert (Rabs (x - yr) <= 1) by (apply Rabs_le; lra).
    apply Rle_trans with (1 * Rabs s); [apply Rmult_le_compat_r; lra|]. rewrite Rmult_1_l. eapply Rle_trans; [apply (w_high a W)|]. apply bpow_le. discriminate. }
  destruct (minus_sign c (f_value a r) FC Fr BD) as (SEQ & SLT).
  (* direction *)
  assert (ASC : f_ascending a = true <-> 0 < s).
  { unfold f_ascending. rewrite SZ. destruct (n <? 2)%Z eqn:Q; [apply Z.ltb_lt in Q; lia|].
    destruct (PT 0%Z ltac:(lia)) as (F0 & z0 & Z0 & A0). destruct (PT 1%Z ltac:(lia)) as (F1 & z1 & Z1 & A1). apply AB in A0. apply AB in A1.
    unfold b_ltb. rewrite (Bltb_correct 53 1024 _ _ F0 F1), Z0, Z1. destruct (Rlt_bool_spec (real start + z0 * s) (real start + z1 * s)) as [L|L]; split; intros H; try reflexivity; try discriminate.
    - destruct (Rtotal_order s 0) as [P|[P|P]]; [|lra|exact P]. assert (z1 <= z0) by (apply ORD'; lra). lra.
    - assert (z1 <= z0) by (apply ORD; lra). lra. }
  (* the points before and after *)
  assert (UNQ' : forall k, (0 <= k < n)%Z -> real c = real (f_value a k) -> k = r).
  { intros k K E. destruct (PT k K) as (_ & yk & Ek & Yk). apply AB in Yk. rewrite EC, Ek in E. assert (x = yk) by (apply (Rmult_eq_reg_r s); lra).
    assert (-1 < k - r)%Z by (apply lt_IZR; rewrite minus_IZR; lra). assert (k - r < 1)%Z by (apply lt_IZR; rewrite minus_IZR; lra). lia. }
  unfold f_find_indexes. rewrite FI. cbn [obind]. rewrite SZ. destruct (r =? -1)%Z eqn:RM; [apply Z.eqb_eq in RM; lia|].
  assert (RNG : forall i0 i1, (0 <= i0 < n)%Z -> (0 <= i1 < n)%Z ->
    (if ((0 <=? i0)%Z && (i0 <? n)%Z && (0 <=? i1)%Z && (i1 <? n)%Z)%bool then Ok (Some (i0, i1)) else Ok None) = Ok (Some (i0, i1))).
  { intros i0 i1 [H1 H2] [H3 H4]. apply Z.leb_le in H1, H3. apply Z.ltb_lt in H2, H4. rewrite H1, H2, H3, H4. reflexivity. }
  destruct (b_eqb (b_minus c (f_value a r)) (b_of_Z 0)) eqn:DE.
  - pose proof (proj1 SEQ eq_refl) as E. destruct (r =? n - 1)%Z eqn:L.
    + apply Z.eqb_eq in L. exists (r - 1)%Z, r. rewrite RNG by lia. repeat split; try lia.
      * rewrite <- E. unfold between. destruct (Rle_or_lt (real (f_value a (r - 1))) (real c)); [left|right]; lra.
      * intros k K Q. apply UNQ' in Q; [|exact K]. auto.
    + apply Z.eqb_neq in L. exists r, (r + 1)%Z. rewrite RNG by lia. repeat split; try lia.
      * rewrite <- E. unfold between. destruct (Rle_or_lt (real c) (real (f_value a (r + 1)))); [left|right]; lra.
      * intros k K Q. apply UNQ' in Q; [|exact K]. auto.
  - assert (NE : real c <> real (f_value a r)) by (intros Q; apply SEQ in Q; discriminate).
    assert (UQ : forall i0 i1, forall k, (0 <= k < n)%Z -> real c = real (f_value a k) -> k = i0 \/ k = i1).
    { intros i0 i1 k K Q. exfalso. pose proof (UNQ' k K Q) as ->. apply NE. exact Q. }
    (* positions of c relative to point r *)
    assert (CASES : (x < yr /\ (0 < r)%Z /\ between (real (f_value a (r - 1))) (real c) (real (f_value a r))) \/
                    (yr < x /\ (r < n - 1)%Z /\ between (real (f_value a r)) (real c) (real (f_value a (r + 1))))).
    { destruct (Rtotal_order x yr) as [L|[L|L]].
      - left. split; [exact L|]. destruct (Z.eq_dec r 0) as [Z0|NZ].
        + exfalso. subst r. assert (y0 = yr) by (apply (Rmult_eq_reg_r s); [|exact SNZ]; lra). subst yr.
          destruct (Rtotal_order s 0) as [P|[P|P]]; [|lra|].
          * destruct BT as [[B1 B2]|[B1 B2]]; rewrite E0, EC in *; rewrite E1 in *; [pose proof (ORD' _ _ B2 P); lra|pose proof (ORD' _ _ B2 P); lra].
          * destruct BT as [[B1 B2]|[B1 B2]]; rewrite E0, EC in *; rewrite E1 in *; [pose proof (ORD _ _ B1 P); lra|pose proof (ORD _ _ B1 P); lra].
        + split; [lia|]. destruct (PT (r - 1)%Z ltac:(lia)) as (_ & yp & Ep & Yp). apply AB in Yp. rewrite minus_IZR in Yp.
          assert (yp <= x) by lra. rewrite Ep, EC, Er. unfold between. destruct (Rle_or_lt 0 s); [left|right]; split; apply Rplus_le_compat_l; nra.
      - exfalso. apply NE. rewrite EC, Er, L. reflexivity.
      - right. split; [exact L|]. destruct (Z.eq_dec r (n - 1)) as [Z0|NZ].
        + exfalso. subst r. assert (y1 = yr) by (apply (Rmult_eq_reg_r s); [|exact SNZ]; lra). subst yr.
          destruct (Rtotal_order s 0) as [P|[P|P]]; [|lra|].
          * destruct BT as [[B1 B2]|[B1 B2]]; rewrite E0, EC in *; rewrite E1 in *; [pose proof (ORD' _ _ B1 P); lra|pose proof (ORD' _ _ B1 P); lra].
          * destruct BT as [[B1 B2]|[B1 B2]]; rewrite E0, EC in *; rewrite E1 in *; [pose proof (ORD _ _ B2 P); lra|pose proof (ORD _ _ B2 P); lra].
        + split; [lia|]. destruct (PT (r + 1)%Z ltac:(lia)) as (_ & yp & Ep & Yp). apply AB in Yp. rewrite plus_IZR in Yp.
          assert (x <= yp) by lra. rewrite Ep, EC, Er. unfold between. destruct (Rle_or_lt 0 s); [left|right]; split; apply Rplus_le_compat_l; nra. }
    assert (FLIPB : forall u v w, between u v w -> between w v u) by (unfold between; tauto).
    destruct (b_ltb (b_minus c (f_value a r)) (b_of_Z 0)) eqn:DL.
    + pose proof (proj1 SLT eq_refl) as L. destruct (f_ascending a) eqn:AS.
      * pose proof (proj1 ASC eq_refl) as P. destruct CASES as [(C1 & C2 & C3)|(C1 & C2 & C3)]; [|exfalso; rewrite EC, Er in L; nra].
        exists (r - 1)%Z, r. rewrite RNG by lia. repeat split; try lia; auto.
      * assert (P : s < 0). { destruct (Rtotal_order s 0) as [P|[P|P]]; [exact P|lra|]. apply ASC in P. discriminate. }
        destruct CASES as [(C1 & C2 & C3)|(C1 & C2 & C3)]; [exfalso; rewrite EC, Er in L; nra|].
        exists (r + 1)%Z, r. rewrite RNG by lia. repeat split; try lia; auto.
    + assert (L : real (f_value a r) < real c). { destruct (Rtotal_order (real c) (real (f_value a r))) as [Q|[Q|Q]]; [apply SLT in Q; discriminate|contradiction|exact Q]. }
      destruct (f_ascending a) eqn:AS.
      * pose proof (proj1 ASC eq_refl) as P. destruct CASES as [(C1 & C2 & C3)|(C1 & C2 & C3)]; [exfalso; rewrite EC, Er in L; nra|].
        exists r, (r + 1)%Z. rewrite RNG by lia. repeat split; try lia; auto.
      * assert (P : s < 0). { destruct (Rtotal_order s 0) as [P|[P|P]]; [exact P|lra|]. apply ASC in P. discriminate. }
        destruct CASES as [(C1 & C2 & C3)|(C1 & C2 & C3)]; [|exfalso; rewrite EC, Er in L; nra].
        exists r, (r - 1)%Z. rewrite RNG by lia. repeat split; try lia; auto.
Qed.

(** Outside the points: no bracket. *)
Lemma find_indexes_none : forall start stop n h a c, reasonable start stop n h -> f_regular start stop n = Ok a -> finite c = true ->
  Rabs (real c - real start) <= IZR (2 ^ 60) * Rabs h ->
  ~ between (real (f_value a 0)) (real c) (real (f_value a (n - 1))) -> f_find_indexes a c = Ok None.
Proof.
  intros start stop n h a c G B FC XH BT. pose proof (widen _ _ _ _ G) as GW. destruct (built _ _ _ _ _ GW B) as (W & ST & SZ & SH).
  pose proof (r_size _ _ _ _ G) as N. change (2 ^ 44)%Z with 17592186044416%Z in N.
  pose proof (step_pos a W) as TP. pose proof (step_nonzero a W) as SNZ. pose proof U_pos as UP. destruct (step_bounds _ _ SH) as [S1 _].
  pose proof (h_pos _ _ _ _ GW) as HP.
  set (s := real (f_step a)) in *.
  assert (LI : forall k, (0 <= k < n)%Z -> (Z.abs k <= 2 ^ 46)%Z) by (intros k K; rewrite Z.abs_eq by lia; change (2 ^ 46)%Z with 70368744177664%Z; lia).
  assert (PT : forall k, (0 <= k < n)%Z -> finite (f_value a k) = true /\ exists y, real (f_value a k) = real start + y * s /\ IZR k - / 16 <= y <= IZR k + / 16).
  { intros k K. destruct (point_ok a k W (LI k K)) as (F & y & E & Y). rewrite ST in E. split; [exact F|]. exists y. split; [exact E|].
    pose proof (Rle_abs (y - IZR k)). pose proof (Rle_abs (- (y - IZR k))). rewrite Rabs_Ropp in H0. lra. }
  set (x := (real c - real start) / s). assert (EC : real c = real start + x * s) by (unfold x; field; exact SNZ).
  assert (HS : Rabs h <= 2 * Rabs s). { assert (/ 2 * Rabs h <= (1 - 8 * U) * Rabs h) by (apply Rmult_le_compat_r; [lra|rewrite UR; lra]). lra. }
  assert (XA : Rabs x <= IZR (2 ^ 61)).
  { apply (abs_scale s); [exact SNZ|]. replace (s * x) with (real c - real start) by (unfold x; field; exact SNZ). eapply Rle_trans; [exact XH|].
    change (2 ^ 61)%Z with (2 ^ 60 * 2)%Z. rewrite mult_IZR, Rmult_assoc. apply Rmult_le_compat_l; [apply IZR_le; discriminate|exact HS]. }
  destruct (PT 0%Z ltac:(lia)) as (F0 & y0 & E0 & Y0). destruct (PT (n - 1)%Z ltac:(lia)) as (F9 & y1 & E1 & Y1).
  assert (N1 : 1 <= IZR (n - 1)) by (apply IZR_le; lia).
  assert (OUT : x < y0 \/ y1 < x).
  { destruct (Rlt_or_le x y0) as [L|L]; [auto|]. destruct (Rlt_or_le y1 x) as [L'|L']; [auto|]. exfalso. apply BT. unfold between. rewrite E0, E1, EC.
    destruct (Rle_or_lt 0 s); [left|right]; split; apply Rplus_le_compat_l; nra. }
  destruct (index_ok a c x W FC) as (r & R & D).
  { rewrite ST. exact EC. } { eapply Rle_trans; [exact XA|]. apply IZR_le. discriminate. }
  assert (D' : Rabs x <= 17592186044418 -> Rabs (IZR r - x) <= 0.6 /\ IZR r - 0.6 <= x <= IZR r + 0.6).
  { intros XS. assert (Q : Rabs (IZR r - x) <= 0.6).
    { eapply Rle_trans; [exact D|]. assert (8 * U * (Rabs x + 1) <= 8 * U * 17592186044419) by (apply Rmult_le_compat_l; lra). rewrite UR in *. lra. }
    split; [exact Q|]. pose proof (Rle_abs (IZR r - x)). pose proof (Rle_abs (- (IZR r - x))). rewrite Rabs_Ropp in H0. lra. }
  unfold f_find_indexes, f_find_index. fold (raw a c). rewrite R. cbn [obind]. rewrite SZ. destruct (r <? 0)%Z eqn:Q0; [reflexivity|]. destruct (n <=? r)%Z eqn:Q1; [reflexivity|].
  cbn [obind]. apply Z.ltb_ge in Q0. apply Z.leb_gt in Q1.
  destruct (r =? -1)%Z eqn:RM; [reflexivity|].
  assert (RR : 0 <= IZR r <= IZR (n - 1)) by (split; apply IZR_le; lia). assert (NB : IZR (n - 1) <= 17592186044415) by (apply IZR_le; lia).
  assert (XS : Rabs x <= 17592186044418).
  { assert (Rabs x <= Rabs (IZR r) + Rabs (IZR r - x)). { replace x with (IZR r + - (IZR r - x)) at 1 by ring. eapply Rle_trans; [apply Rabs_triang|]. rewrite Rabs_Ropp. lra. }
    rewrite (Rabs_pos_eq (IZR r)) in H by lra. assert (8 * U * (Rabs x + 1) <= / 1000000000000000 * (Rabs x + 1)) by (apply Rmult_le_compat_r; [pose proof (Rabs_pos x); lra|rewrite UR; lra]). lra. }
  destruct (D' XS) as (D1 & D2). clear D D'.
  destruct (PT r ltac:(lia)) as (Fr & yr & Er & Yr).
  assert (BD : Rabs (real c - real (f_value a r)) <= bpow radix2 1000).
  { rewrite EC, Er. replace (real start + x * s - (real start + yr * s)) with ((x - yr) * s) by ring. rewrite Rabs_mult.
    assert (Rabs (x - yr) <= 1) by (apply Rabs_le; lra).
    apply Rle_trans with (1 * Rabs s); [apply Rmult_le_compat_r; lra|]. rewrite Rmult_1_l. eapply Rle_trans; [apply (w_high a W)|]. apply bpow_le. discriminate. }
  destruct (minus_sign c (f_value a r) FC Fr BD) as (SEQ & SLT).
  assert (ASC : f_ascending a = true <-> 0 < s).
  { unfold f_ascending. rewrite SZ. destruct (n <? 2)%Z eqn:Q; [apply Z.ltb_lt in Q; lia|].
    destruct (PT 1%Z ltac:(lia)) as (F1 & z1 & Z1 & A1).
    unfold b_ltb. rewrite (Bltb_correct 53 1024 _ _ F0 F1), E0, Z1. destruct (Rlt_bool_spec (real start + y0 * s) (real start + z1 * s)) as [L|L]; split; intros H; try reflexivity; try discriminate.
    - destruct (Rtotal_order s 0) as [P|[P|P]]; [|lra|exact P]. exfalso. assert (P1 : y0 < z1) by lra. assert (0 < (z1 - y0) * - s) by (apply Rmult_lt_0_compat; lra). lra.
    - exfalso. assert (P1 : y0 < z1) by lra. assert (0 < (z1 - y0) * s) by (apply Rmult_lt_0_compat; lra). lra. }
  assert (BAD : forall i0 i1, (i0 < 0 \/ n <= i0 \/ i1 < 0 \/ n <= i1)%Z ->
    (if ((0 <=? i0)%Z && (i0 <? n)%Z && (0 <=? i1)%Z && (i1 <? n)%Z)%bool then Ok (Some (i0, i1)) else Ok None) = Ok (A := option (Z * Z)) None).
  { intros i0 i1 H. destruct (0 <=? i0)%Z eqn:H1; [|reflexivity]. destruct (i0 <? n)%Z eqn:H2; [|reflexivity]. destruct (0 <=? i1)%Z eqn:H3; [|reflexivity]. destruct (i1 <? n)%Z eqn:H4; [|reflexivity].
    apply Z.leb_le in H1, H3. apply Z.ltb_lt in H2, H4. lia. }
  destruct OUT as [L|L].
  - assert (Z0 : r = 0%Z). { assert (r < 1)%Z by (apply lt_IZR; lra). lia. } subst r.
    assert (yr = y0) by (apply (Rmult_eq_reg_r s); [|exact SNZ]; lra). subst yr.
    destruct (b_eqb (b_minus c (f_value a 0)) (b_of_Z 0)) eqn:DE.
    { exfalso. pose proof (proj1 SEQ eq_refl) as E. rewrite EC, E0 in E. assert (x = y0) by (apply (Rmult_eq_reg_r s); [|exact SNZ]; lra). lra. }
    destruct (b_ltb (b_minus c (f_value a 0)) (b_of_Z 0)) eqn:DL.
    + pose proof (proj1 SLT eq_refl) as K. rewrite EC, E0 in K. assert (P : 0 < s). { destruct (Rtotal_order s 0) as [P|[P|P]]; [|lra|exact P]. assert (0 < (y0 - x) * - s) by (apply Rmult_lt_0_compat; lra). lra. }
      rewrite (proj2 ASC P). apply BAD. lia.
    + destruct (f_ascending a) eqn:AS; [|apply BAD; lia]. exfalso. pose proof (proj1 ASC eq_refl) as P. assert (K : real c < real (f_value a 0)).
      { rewrite EC, E0. assert (0 < (y0 - x) * s) by (apply Rmult_lt_0_compat; lra). lra. }
      apply SLT in K. discriminate.
  - assert (Z0 : r = (n - 1)%Z). { rewrite minus_IZR in *. assert (n - 2 < r)%Z by (apply lt_IZR; rewrite minus_IZR; lra). lia. } subst r.
    assert (yr = y1) by (apply (Rmult_eq_reg_r s); [|exact SNZ]; lra). subst yr.
    destruct (b_eqb (b_minus c (f_value a (n - 1))) (b_of_Z 0)) eqn:DE.
    { exfalso. pose proof (proj1 SEQ eq_refl) as E. rewrite EC, E1 in E. assert (x = y1) by (apply (Rmult_eq_reg_r s); [|exact SNZ]; lra). lra. }
    destruct (b_ltb (b_minus c (f_value a (n - 1))) (b_of_Z 0)) eqn:DL.
    + pose proof (proj1 SLT eq_refl) as K. rewrite EC, E1 in K. destruct (f_ascending a) eqn:AS; [|apply BAD; lia]. exfalso. pose proof (proj1 ASC eq_refl) as P.
      assert (0 < (x - y1) * s) by (apply Rmult_lt_0_compat; lra). lra.
    + destruct (f_ascending a) eqn:AS; [apply BAD; lia|]. exfalso. assert (P : s < 0). { destruct (Rtotal_order s 0) as [P|[P|P]]; [exact P|lra|]. apply ASC in P. discriminate. }
      assert (K : real c < real (f_value a (n - 1))).
      { rewrite EC, E1. assert (0 < (x - y1) * - s) by (apply Rmult_lt_0_compat; lra). lra. }
      apply SLT in K. discriminate.
Qed.

(** ** Weights *)
(** (x - x0) / (x1 - x0). *)
Definition ratio (x x0 x1 : b64) : b64 := b_div (b_minus x x0) (b_minus x1 x0).
Lemma tiny_U' : tiny <= U. Proof. apply tiny_U. Qed.

Lemma bpow_le_900_1000 : forall r, r <= bpow radix2 900 -> r <= bpow radix2 1000.
Proof. intros r H. eapply Rle_trans; [exact H|]. apply bpow_le. discriminate. Qed.
Lemma abs_between : forall v u w, between v u w -> Rabs (u - v) <= Rabs (w - v) /\ 0 <= (u - v) * (w - v).
Proof.
  intros v u w [H|H].
  - rewrite !Rabs_pos_eq by lra. split; [lra|]. apply Rmult_le_pos; lra.
  - rewrite (Rabs_minus_sym u), (Rabs_minus_sym w), !Rabs_pos_eq by lra. split; [lra|].
    replace ((u - v) * (w - v)) with ((v - u) * (v - w)) by ring. apply Rmult_le_pos; lra.
Qed.

Record cell1 (x x0 x1 : b64) : Prop := Cell1 {
  c_x : finite x = true; c_x0 : finite x0 = true; c_x1 : finite x1 = true;
  c_low : bpow radix2 (-900) <= Rabs (real x1 - real x0); c_high : Rabs (real x1 - real x0) <= bpow radix2 900;
  c_between : between (real x0) (real x) (real x1) }.

(** A quotient of two rounded numbers, in [0, 1]. *)
Lemma quot_ok : forall (n d : b64) N D, finite n = true -> real n = rnd N -> real d = rnd D ->
  bpow radix2 (-900) <= Rabs D -> Rabs N <= Rabs D -> 0 <= N * D ->
  real d <> 0 /\ finite (b_div n d) = true /\ 0 <= real (b_div n d) <= 1 /\ Rabs (real (b_div n d) - N / D) <= 8 * U /\
  (N = 0 -> real (b_div n d) = 0) /\ (N = D -> real (b_div n d) = 1).
Proof.
  intros n d' N D Fn En Ed LO AB SG. pose proof (bpow_gt_0 radix2 (-900)) as BP. pose proof U_pos as UP.
  assert (DP : 0 < Rabs D) by lra. assert (DZ : D <> 0) by (intros Z; rewrite Z, Rabs_R0 in DP; lra).
  set (d := real d') in *. set (m := real n) in *.
  assert (TT : tiny <= U * Rabs D) by (apply tiny_UT; exact LO).
  assert (XD : Rabs (d - D) <= 2 * U * Rabs D). { rewrite Ed. eapply Rle_trans; [apply rnd_error|]. lra. }
  assert (XN : Rabs (m - N) <= 2 * U * Rabs D). { rewrite En. eapply Rle_trans; [apply rnd_error|]. assert (U * Rabs N <= U * Rabs D) by (apply Rmult_le_compat_l; lra). lra. }
  assert (D9 : 0.99 * Rabs D <= Rabs d).
  { assert (Rabs D <= Rabs d + Rabs (d - D)). { replace D with (d + - (d - D)) at 1 by ring. eapply Rle_trans; [apply Rabs_triang|]. rewrite Rabs_Ropp. lra. }
    assert (2 * U * Rabs D <= 0.01 * Rabs D) by (apply Rmult_le_compat_r; [lra|rewrite UR; lra]). lra. }
  assert (dP : 0 < Rabs d) by lra. assert (dZ : d <> 0) by (intros Z; rewrite Z, Rabs_R0 in dP; lra).
  assert (IN : 0 <= m / d <= 1).
  { destruct (Rle_or_lt 0 D) as [P|P].
    - assert (0 < D) by lra. assert (0 <= N) by (destruct (Rle_or_lt 0 N) as [|Q]; [assumption|exfalso; nra]).
      rewrite (Rabs_pos_eq D), (Rabs_pos_eq N) in AB by lra.
      assert (K1 : rnd 0 <= m) by (rewrite En; apply rnd_le; lra). assert (K2 : m <= d) by (rewrite En, Ed; apply rnd_le; lra). rewrite rnd_0 in K1.
      assert (0 < d) by lra. split; [apply Rmult_le_pos; [lra|left; apply Rinv_0_lt_compat; lra]|]. apply (Rmult_le_reg_r d); [lra|]. replace (m / d * d) with m by (field; exact dZ). lra.
    - assert (N <= 0) by (destruct (Rle_or_lt N 0) as [|Q]; [assumption|exfalso; nra]).
      rewrite (Rabs_left D), (Rabs_left1 N) in AB by lra.
      assert (K1 : m <= rnd 0) by (rewrite En; apply rnd_le; lra). assert (K2 : d <= m) by (rewrite En, Ed; apply rnd_le; lra). rewrite rnd_0 in K1.
      assert (d < 0) by lra. replace (m / d) with ((- m) / (- d)) by (field; exact dZ).
      split; [apply Rmult_le_pos; [lra|left; apply Rinv_0_lt_compat; lra]|]. apply (Rmult_le_reg_r (- d)); [lra|]. replace (- m / - d * - d) with (- m) by (field; exact dZ). lra. }
  assert (IA : Rabs (m / d) <= 1) by (rewrite Rabs_pos_eq by lra; lra).
  destruct (div_rnd n d' Fn dZ) as (Fr & Er).
  { fold m d. eapply Rle_trans; [exact IA|]. change 1 with (bpow radix2 0). apply bpow_le. discriminate. }
  fold m d in Er. split; [exact dZ|]. split; [exact Fr|]. rewrite Er. split; [|split; [|split]].
  - split; [rewrite <- rnd_0; apply rnd_le; lra|rewrite <- rnd_1; apply rnd_le; lra].
  - replace (rnd (m / d) - N / D) with ((rnd (m / d) - m / d) + (m / d - N / D)) by ring. eapply Rle_trans; [apply Rabs_triang|].
    assert (E1 : Rabs (rnd (m / d) - m / d) <= 2 * U). { eapply Rle_trans; [apply rnd_error|]. assert (U * Rabs (m / d) <= U * 1) by (apply Rmult_le_compat_l; lra). pose proof tiny_U. lra. }
    assert (ND : Rabs (N / D) <= 1).
    { unfold Rdiv. rewrite Rabs_mult, Rabs_inv. apply (Rmult_le_reg_r (Rabs D)); [exact DP|]. rewrite Rmult_assoc, Rinv_l by lra. lra. }
    assert (E2 : Rabs (m / d - N / D) <= 5 * U).
    { apply (abs_scale d); [exact dZ|]. replace (d * (m / d - N / D)) with ((m - N) + - ((N / D) * (d - D))) by (field; split; assumption).
      eapply Rle_trans; [apply Rabs_triang|]. rewrite Rabs_Ropp, Rabs_mult.
      assert (Rabs (N / D) * Rabs (d - D) <= 1 * (2 * U * Rabs D)) by (apply Rmult_le_compat; try apply Rabs_pos; assumption).
      assert (5 * U * (0.99 * Rabs D) <= 5 * U * Rabs d) by (apply Rmult_le_compat_l; lra). assert (0 <= U * Rabs D) by (apply Rmult_le_pos; lra). lra. }
    lra.
  - intros E. assert (m = 0) by (rewrite En, E; apply rnd_0). rewrite H. unfold Rdiv. rewrite Rmult_0_l. apply rnd_0.
  - intros E. assert (m = d) by (rewrite En, Ed, E; reflexivity). rewrite H. replace (d / d) with 1 by (field; exact dZ). apply rnd_1.
Qed.
Lemma ratio_ok : forall x x0 x1, cell1 x x0 x1 ->
  finite (ratio x x0 x1) = true /\ 0 <= real (ratio x x0 x1) <= 1 /\
  Rabs (real (ratio x x0 x1) - (real x - real x0) / (real x1 - real x0)) <= 8 * U /\
  (real x = real x0 -> real (ratio x x0 x1) = 0) /\ (real x = real x1 -> real (ratio x x0 x1) = 1).
Proof.
  intros x x0 x1 [FX F0 F1 LO HI BT]. destruct (abs_between _ _ _ BT) as [AB SG].
  destruct (minus_rnd x1 x0 F1 F0) as (Fd & Ed). { apply bpow_le_900_1000. exact HI. }
  destruct (minus_rnd x x0 FX F0) as (Fn & En). { apply bpow_le_900_1000. lra. }
  destruct (quot_ok _ _ _ _ Fn En Ed LO AB SG) as (_ & A & B & C & D & E). unfold ratio. repeat (split; [assumption|]).
  split; intros H; [apply D|apply E]; lra.
Qed.

(** ** Exact operations *)
Lemma lt_max : forall x : b64, Rlt_bool (Rabs (real x)) (bpow radix2 1024) = true.
Proof. intros x. apply Rlt_bool_true. apply abs_B2R_lt_emax. Qed.
Lemma mult_exact : forall x y z : b64, finite x = true -> finite y = true -> real x * real y = real z ->
  finite (b_mult x y) = true /\ real (b_mult x y) = real z.
Proof.
  intros x y z X Y E. pose proof (@Bmult_correct 53 1024 b64_prec b64_emax mode_NE x y) as H.
  cbn [round_mode] in H. rewrite E, rnd_id, lt_max in H. destruct H as (R & F & _). split; [|exact R]. unfold b_mult. rewrite F, X, Y. reflexivity.
Qed.
Lemma plus_exact : forall x y z : b64, finite x = true -> finite y = true -> real x + real y = real z ->
  finite (b_plus x y) = true /\ real (b_plus x y) = real z.
Proof.
  intros x y z X Y E. pose proof (@Bplus_correct 53 1024 b64_prec b64_emax mode_NE x y X Y) as H.
  cbn [round_mode] in H. rewrite E, rnd_id, lt_max in H. destruct H as (R & F & _). auto.
Qed.
Lemma minus_exact : forall x y z : b64, finite x = true -> finite y = true -> real x - real y = real z ->
  finite (b_minus x y) = true /\ real (b_minus x y) = real z.
Proof.
  intros x y z X Y E. pose proof (@Bminus_correct 53 1024 b64_prec b64_emax mode_NE x y X Y) as H.
  cbn [round_mode] in H. rewrite E, rnd_id, lt_max in H. destruct H as (R & F & _). auto.
Qed.
Lemma of_0 : finite (b_of_Z 0) = true /\ real (b_of_Z 0) = 0. Proof. apply (of_Z_ok 0). discriminate. Qed.
Lemma of_1 : finite (b_of_Z 1) = true /\ real (b_of_Z 1) = 1. Proof. apply (of_Z_ok 1). discriminate. Qed.
(** [0 q = 0], [1 q = q]. *)
Definition unit_of (r : R) (b : bool) : Prop := r = if b then 1 else 0.
Lemma mult_unit : forall w q b, finite w = true -> finite q = true -> unit_of (real w) b ->
  finite (b_mult w q) = true /\ real (b_mult w q) = if b then real q else 0.
Proof.
  intros w q b W Q E. red in E. destruct b.
  - apply mult_exact; auto. rewrite E. ring.
  - destruct of_0 as (_ & <-). apply mult_exact; auto. rewrite E. destruct of_0 as (_ & ->). ring.
Qed.
Lemma mult_units : forall w v b c, finite w = true -> finite v = true -> unit_of (real w) b -> unit_of (real v) c ->
  finite (b_mult w v) = true /\ unit_of (real (b_mult w v)) (b && c).
Proof.
  intros w v b c W V B C. destruct (mult_unit w v b W V B) as (F & E). split; [exact F|]. red. rewrite E. red in C. destruct b; [rewrite C|]; reflexivity.
Qed.
Lemma compl_unit : forall w b, finite w = true -> unit_of (real w) b ->
  finite (b_minus (b_of_Z 1) w) = true /\ unit_of (real (b_minus (b_of_Z 1) w)) (negb b).
Proof.
  intros w b W E. red in E. destruct of_0 as (F0 & E0). destruct of_1 as (F1 & E1). destruct b.
  - destruct (minus_exact (b_of_Z 1) w (b_of_Z 0) F1 W) as (F & R); [rewrite E1, E0, E; ring|]. split; [exact F|]. red. rewrite R, E0. reflexivity.
  - destruct (minus_exact (b_of_Z 1) w (b_of_Z 1) F1 W) as (F & R); [rewrite E1, E; ring|]. split; [exact F|]. red. rewrite R, E1. reflexivity.
Qed.
Lemma plus_one : forall x y (q : b64) b c, finite x = true -> finite y = true -> (b && c = false)%bool ->
  real x = (if b then real q else 0) -> real y = (if c then real q else 0) ->
  finite (b_plus x y) = true /\ real (b_plus x y) = if (b || c)%bool then real q else 0.
Proof.
  intros x y q b c X Y N EX EY. destruct of_0 as (F0 & E0). destruct b, c; try discriminate; cbn [orb].
  - apply plus_exact; auto. rewrite EX, EY. ring.
  - apply plus_exact; auto. rewrite EX, EY. ring.
  - rewrite <- E0. apply plus_exact; auto. rewrite EX, EY, E0. ring.
Qed.

(** ** Bilinear interpolation *)
Lemma bilinear_node : forall x y x0 y0 x1 y1 q00 q01 q10 q11 (bx by' : bool), cell1 x x0 x1 -> cell1 y y0 y1 ->
  finite q00 = true -> finite q01 = true -> finite q10 = true -> finite q11 = true ->
  real x = (if bx then real x1 else real x0) -> real y = (if by' then real y1 else real y0) ->
  let r := f_bilinear x y x0 y0 x1 y1 q00 q01 q10 q11 in
  finite r = true /\ real r = real (if bx then (if by' then q11 else q10) else (if by' then q01 else q00)).
Proof.
  intros x y x0 y0 x1 y1 q00 q01 q10 q11 bx by' CX CY F00 F01 F10 F11 EX EY.
  destruct (ratio_ok _ _ _ CX) as (FT & _ & _ & T0 & T1). destruct (ratio_ok _ _ _ CY) as (FU & _ & _ & U0 & U1).
  unfold f_bilinear. fold (ratio x x0 x1) (ratio y y0 y1). cbv zeta.
  assert (ET : unit_of (real (ratio x x0 x1)) bx) by (red; destruct bx; auto).
  assert (EU : unit_of (real (ratio y y0 y1)) by') by (red; destruct by'; auto).
  set (t := ratio x x0 x1) in *. set (u := ratio y y0 y1) in *.
  destruct (compl_unit t bx FT ET) as (FT' & ET'). destruct (compl_unit u by' FU EU) as (FU' & EU').
  set (t' := b_minus (b_of_Z 1) t) in *. set (u' := b_minus (b_of_Z 1) u) in *.
  destruct (mult_units t' u' _ _ FT' FU' ET' EU') as (G1 & H1). destruct (mult_units t u' _ _ FT FU' ET EU') as (G2 & H2).
  destruct (mult_units t' u _ _ FT' FU ET' EU) as (G3 & H3). destruct (mult_units t u _ _ FT FU ET EU) as (G4 & H4).
  destruct (mult_unit _ q00 _ G1 F00 H1) as (A1 & B1). destruct (mult_unit _ q10 _ G2 F10 H2) as (A2 & B2).
  destruct (mult_unit _ q01 _ G3 F01 H3) as (A3 & B3). destruct (mult_unit _ q11 _ G4 F11 H4) as (A4 & B4).
  set (m1 := b_mult (b_mult t' u') q00) in *. set (m2 := b_mult (b_mult t u') q10) in *. set (m3 := b_mult (b_mult t' u) q01) in *. set (m4 := b_mult (b_mult t u) q11) in *.
  set (q := if bx then if by' then q11 else q10 else if by' then q01 else q00).
  destruct (plus_one m1 m2 q (negb bx && negb by') (bx && negb by') A1 A2) as (P1 & Q1).
  { destruct bx, by'; reflexivity. } { rewrite B1. unfold q. destruct bx, by'; reflexivity. } { rewrite B2. unfold q. destruct bx, by'; reflexivity. }
  destruct (plus_one _ m3 q (negb bx && negb by' || bx && negb by') (negb bx && by') P1 A3) as (P2 & Q2).
  { destruct bx, by'; reflexivity. } { exact Q1. } { rewrite B3. unfold q. destruct bx, by'; reflexivity. }
  destruct (plus_one _ m4 q (negb bx && negb by' || bx && negb by' || negb bx && by') (bx && by') P2 A4) as (P3 & Q3).
  { destruct bx, by'; reflexivity. } { exact Q2. } { rewrite B4. unfold q. destruct bx, by'; reflexivity. }
  split; [exact P3|]. rewrite Q3. destruct bx, by'; reflexivity.
Qed.

(** A computed weight [w] in [0, 1], close to [omega]. *)
Definition weight (w : b64) (omega e : R) : Prop := finite w = true /\ 0 <= real w <= 1 /\ 0 <= omega <= 1 /\ Rabs (real w - omega) <= e * U.
Lemma compl_weight : forall w omega e, weight w omega e -> weight (b_minus (b_of_Z 1) w) (1 - omega) (e + 2).
Proof.
  intros w omega e (F & B & O & E). destruct of_1 as (F1 & E1). pose proof U_pos as UP.
  assert (AB : Rabs (1 - real w) <= 1) by (rewrite Rabs_pos_eq; lra).
  destruct (minus_rnd (b_of_Z 1) w F1 F) as (G & R). { rewrite E1. eapply Rle_trans; [exact AB|]. change 1 with (bpow radix2 0). apply bpow_le. discriminate. }
  rewrite E1 in R. split; [exact G|]. rewrite R. split; [|split; [lra|]].
  - split; [rewrite <- rnd_0; apply rnd_le; lra|]. apply Rle_trans with (rnd 1); [apply rnd_le; lra|right; apply rnd_1].
  - replace (rnd (1 - real w) - (1 - omega)) with ((rnd (1 - real w) - (1 - real w)) + - (real w - omega)) by ring.
    eapply Rle_trans; [apply Rabs_triang|]. rewrite Rabs_Ropp. pose proof (rnd_error (1 - real w)). pose proof tiny_U.
    assert (U * Rabs (1 - real w) <= U * 1) by (apply Rmult_le_compat_l; lra). lra.
Qed.
Lemma mult_weight : forall w v o p e f, weight w o e -> weight v p f -> weight (b_mult w v) (o * p) (e + f + 2).
Proof.
  intros w v o p e f (F & B & O & E) (F' & B' & O' & E'). pose proof U_pos as UP.
  assert (IN : 0 <= real w * real v <= 1) by nra. assert (AB : Rabs (real w * real v) <= 1) by (rewrite Rabs_pos_eq; lra).
  destruct (mult_rnd w v F F') as (G & R). { eapply Rle_trans; [exact AB|]. change 1 with (bpow radix2 0). apply bpow_le. discriminate. }
  split; [exact G|]. rewrite R. split; [|split; [nra|]].
  - split; [rewrite <- rnd_0; apply rnd_le; lra|]. apply Rle_trans with (rnd 1); [apply rnd_le; lra|right; apply rnd_1].
  - replace (rnd (real w * real v) - o * p) with ((rnd (real w * real v) - real w * real v) + (real v * (real w - o) + o * (real v - p))) by ring.
    eapply Rle_trans; [apply Rabs_triang|]. eapply Rle_trans; [apply Rplus_le_compat_l, Rabs_triang|]. rewrite !Rabs_mult, (Rabs_pos_eq (real v)), (Rabs_pos_eq o) by lra.
    pose proof (rnd_error (real w * real v)). pose proof tiny_U.
    assert (U * Rabs (real w * real v) <= U * 1) by (apply Rmult_le_compat_l; lra).
    assert (real v * Rabs (real w - o) <= 1 * (e * U)) by (apply Rmult_le_compat; try apply Rabs_pos; lra).
    assert (o * Rabs (real v - p) <= 1 * (f * U)) by (apply Rmult_le_compat; try apply Rabs_pos; lra). lra.
Qed.
Lemma ratio_weight : forall x x0 x1, cell1 x x0 x1 -> weight (ratio x x0 x1) ((real x - real x0) / (real x1 - real x0)) 8.
Proof.
  intros x x0 x1 C. destruct (ratio_ok _ _ _ C) as (F & B & E & _). split; [exact F|]. split; [exact B|]. split; [|exact E].
  destruct C as [_ _ _ LO _ BT]. pose proof (bpow_gt_0 radix2 (-900)) as BP.
  destruct BT as [H|H].
  - assert (0 < real x1 - real x0). { destruct (Rle_lt_or_eq_dec (real x0) (real x1)) as [L|L]; [lra|lra|]. exfalso. rewrite L, Rminus_eq_0, Rabs_R0 in LO. lra. }
    split; [apply Rmult_le_pos; [lra|left; apply Rinv_0_lt_compat; lra]|]. apply (Rmult_le_reg_r (real x1 - real x0)); [lra|]. unfold Rdiv. rewrite Rmult_assoc, Rinv_l by lra. lra.
  - assert (0 < real x0 - real x1). { destruct (Rle_lt_or_eq_dec (real x1) (real x0)) as [L|L]; [lra|lra|]. exfalso. rewrite L, Rminus_eq_0, Rabs_R0 in LO. lra. }
    replace ((real x - real x0) / (real x1 - real x0)) with ((real x0 - real x) / (real x0 - real x1)) by (field; lra).
    split; [apply Rmult_le_pos; [lra|left; apply Rinv_0_lt_compat; lra]|]. apply (Rmult_le_reg_r (real x0 - real x1)); [lra|]. unfold Rdiv. rewrite Rmult_assoc, Rinv_l by lra. lra.
Qed.
(** A term: weight times value. *)
Lemma term_ok : forall w q o e Q, weight w o e -> 0 <= e -> finite q = true -> Rabs (real q) <= Q -> Q <= bpow radix2 990 ->
  finite (b_mult w q) = true /\ Rabs (real (b_mult w q) - o * real q) <= (e + 1) * U * Q + tiny.
Proof.
  intros w q o e Q (F & B & O & E) E0 FQ BQ LQ. pose proof U_pos as UP. pose proof (Rabs_pos (real q)).
  assert (AB : Rabs (real w * real q) <= Q). { rewrite Rabs_mult, (Rabs_pos_eq (real w)) by lra. apply Rle_trans with (1 * Rabs (real q)); [apply Rmult_le_compat_r; lra|lra]. }
  destruct (mult_rnd w q F FQ) as (G & R). { eapply Rle_trans; [exact AB|]. eapply Rle_trans; [exact LQ|]. apply bpow_le. discriminate. }
  split; [exact G|]. rewrite R. replace (rnd (real w * real q) - o * real q) with ((rnd (real w * real q) - real w * real q) + (real w - o) * real q) by ring.
  eapply Rle_trans; [apply Rabs_triang|]. rewrite Rabs_mult. pose proof (rnd_error (real w * real q)).
  assert (U * Rabs (real w * real q) <= U * Q) by (apply Rmult_le_compat_l; lra).
  assert (Rabs (real w - o) * Rabs (real q) <= e * U * Q) by (apply Rmult_le_compat; try apply Rabs_pos; assumption). lra.
Qed.
Lemma sum_ok : forall x y X Y a b c d k Q, finite x = true -> finite y = true ->
  Rabs (real x - X) <= a * U * Q + c * tiny -> Rabs (real y - Y) <= b * U * Q + d * tiny ->
  Rabs X <= k * Q -> Rabs Y <= Q -> 0 <= a <= 1000 -> 0 <= b <= 1000 -> 0 <= c <= 1000 -> 0 <= d <= 1000 -> 1 <= k <= 10 -> 0 <= Q -> Q <= bpow radix2 990 ->
  finite (b_plus x y) = true /\ Rabs (real (b_plus x y) - (X + Y)) <= (a + b + k + 2) * U * Q + (c + d + 2) * tiny.
Proof.
  intros x y X Y a b c d k Q FX FY EX EY BX BY BA BB BC BD BK Q0 LQ. pose proof U_pos as UP. pose proof tiny_pos as TP. pose proof tiny_U as TU.
  assert (UQ : 0 <= U * Q) by (apply Rmult_le_pos; lra). assert (US : U <= / 1000000) by (rewrite UR; lra).
  assert (UQS : U * Q <= / 1000000 * Q) by (apply Rmult_le_compat_r; lra).
  assert (A1 : a * (U * Q) <= 1000 * (U * Q)) by (apply Rmult_le_compat_r; lra).
  assert (B1 : b * (U * Q) <= 1000 * (U * Q)) by (apply Rmult_le_compat_r; lra).
  assert (C1 : c * tiny <= 1000 * tiny) by (apply Rmult_le_compat_r; lra).
  assert (D1 : d * tiny <= 1000 * tiny) by (apply Rmult_le_compat_r; lra).
  assert (ST : Rabs (real x + real y) <= Rabs X + Rabs Y + (Rabs (real x - X) + Rabs (real y - Y))).
  { replace (real x + real y) with ((X + Y) + ((real x - X) + (real y - Y))) by ring. eapply Rle_trans; [apply Rabs_triang|]. apply Rplus_le_compat; apply Rabs_triang. }
  assert (SB : Rabs (real x + real y) <= (k + 2) * Q + 2000 * tiny) by lra.
  assert (KQ : k * Q <= 10 * Q) by (apply Rmult_le_compat_r; lra).
  assert (BIG : Rabs (real x + real y) <= bpow radix2 1000).
  { replace (bpow radix2 1000) with (1024 * bpow radix2 990) by (change 1024 with (bpow radix2 10); rewrite <- bpow_plus; reflexivity).
    assert (1 <= bpow radix2 990) by (change 1 with (bpow radix2 0); apply bpow_le; discriminate). lra. }
  destruct (plus_rnd x y FX FY BIG) as (F & R). split; [exact F|]. rewrite R.
  replace (rnd (real x + real y) - (X + Y)) with ((rnd (real x + real y) - (real x + real y)) + ((real x - X) + (real y - Y))) by ring.
  eapply Rle_trans; [apply Rabs_triang|]. eapply Rle_trans; [apply Rplus_le_compat_l, Rabs_triang|].
  pose proof (rnd_error (real x + real y)) as E1.
  assert (E2 : U * Rabs (real x + real y) <= U * ((k + 2) * Q + 2000 * tiny)) by (apply Rmult_le_compat_l; lra).
  assert (E3 : U * (2000 * tiny) <= / 1000000 * (2000 * tiny)) by (apply Rmult_le_compat_r; lra).
  replace (U * ((k + 2) * Q + 2000 * tiny)) with (k * (U * Q) + 2 * (U * Q) + U * (2000 * tiny)) in E2 by ring.
  replace ((a + b + k + 2) * U * Q) with (a * (U * Q) + b * (U * Q) + k * (U * Q) + 2 * (U * Q)) by ring.
  lra.
Qed.

(** The exact bilinear interpolation. *)
Definition exact_bilinear (x y x0 y0 x1 y1 q00 q01 q10 q11 : R) : R :=
  (q00 * (x1 - x) * (y1 - y) + q10 * (x - x0) * (y1 - y) + q01 * (x1 - x) * (y - y0) + q11 * (x - x0) * (y - y0)) / ((x1 - x0) * (y1 - y0)).
Lemma bilinear_close : forall x y x0 y0 x1 y1 q00 q01 q10 q11 Q, cell1 x x0 x1 -> cell1 y y0 y1 ->
  finite q00 = true -> finite q01 = true -> finite q10 = true -> finite q11 = true ->
  Rabs (real q00) <= Q -> Rabs (real q01) <= Q -> Rabs (real q10) <= Q -> Rabs (real q11) <= Q -> Q <= bpow radix2 990 ->
  let r := f_bilinear x y x0 y0 x1 y1 q00 q01 q10 q11 in
  finite r = true /\ Rabs (real r - exact_bilinear (real x) (real y) (real x0) (real y0) (real x1) (real y1) (real q00) (real q01) (real q10) (real q11)) <= 128 * U * Q + 16 * tiny.
Proof.
  intros x y x0 y0 x1 y1 q00 q01 q10 q11 Q CX CY F00 F01 F10 F11 B00 B01 B10 B11 LQ r. unfold r, f_bilinear. fold (ratio x x0 x1) (ratio y y0 y1). cbv zeta.
  pose proof (ratio_weight _ _ _ CX) as WT. pose proof (ratio_weight _ _ _ CY) as WU.
  set (tau := (real x - real x0) / (real x1 - real x0)) in *. set (ups := (real y - real y0) / (real y1 - real y0)) in *.
  pose proof (compl_weight _ _ _ WT) as WT'. pose proof (compl_weight _ _ _ WU) as WU'.
  assert (Q0 : 0 <= Q) by (pose proof (Rabs_pos (real q00)); lra). pose proof U_pos as UP. pose proof tiny_pos as TP.
  pose proof (mult_weight _ _ _ _ _ _ WT' WU') as W1. pose proof (mult_weight _ _ _ _ _ _ WT WU') as W2.
  pose proof (mult_weight _ _ _ _ _ _ WT' WU) as W3. pose proof (mult_weight _ _ _ _ _ _ WT WU) as W4.
  destruct (term_ok _ q00 _ _ Q W1 ltac:(lra) F00 B00 LQ) as (A1 & E1). destruct (term_ok _ q10 _ _ Q W2 ltac:(lra) F10 B10 LQ) as (A2 & E2).
  destruct (term_ok _ q01 _ _ Q W3 ltac:(lra) F01 B01 LQ) as (A3 & E3). destruct (term_ok _ q11 _ _ Q W4 ltac:(lra) F11 B11 LQ) as (A4 & E4).
  assert (PB : forall w o e q, weight w o e -> Rabs q <= Q -> Rabs (o * q) <= Q).
  { intros w o e q (_ & _ & O & _) B. rewrite Rabs_mult, (Rabs_pos_eq o) by lra. apply Rle_trans with (1 * Rabs q); [apply Rmult_le_compat_r; [apply Rabs_pos|lra]|lra]. }
  pose proof (PB _ _ _ _ W1 B00) as D1. pose proof (PB _ _ _ _ W2 B10) as D2. pose proof (PB _ _ _ _ W3 B01) as D3. pose proof (PB _ _ _ _ W4 B11) as D4.
  rewrite <- (Rmult_1_l tiny) in E1, E2, E3, E4.
  destruct (sum_ok _ _ _ _ _ _ _ _ 1 Q A1 A2 E1 E2 ltac:(lra) D2 ltac:(lra) ltac:(lra) ltac:(lra) ltac:(lra) ltac:(lra) Q0 LQ) as (S1 & G1).
  destruct (sum_ok _ _ _ _ _ _ _ _ 2 Q S1 A3 G1 E3) as (S2 & G2); try lra. { eapply Rle_trans; [apply Rabs_triang|]. lra. }
  destruct (sum_ok _ _ _ _ _ _ _ _ 3 Q S2 A4 G2 E4) as (S3 & G3); try lra. { eapply Rle_trans; [apply Rabs_triang|]. eapply Rle_trans; [apply Rplus_le_compat_r, Rabs_triang|]. lra. }
  split; [exact S3|]. clear E1 E2 E3 E4 G1 G2 W1 W2 W3 W4 WT WU WT' WU'.
  assert (EQ : exact_bilinear (real x) (real y) (real x0) (real y0) (real x1) (real y1) (real q00) (real q01) (real q10) (real q11) =
    (1 - tau) * (1 - ups) * real q00 + tau * (1 - ups) * real q10 + (1 - tau) * ups * real q01 + tau * ups * real q11).
  { pose proof (bpow_gt_0 radix2 (-900)). pose proof (c_low _ _ _ CX). pose proof (c_low _ _ _ CY). unfold exact_bilinear, tau, ups. field.
    split; intros Z; rewrite Z, Rabs_R0 in *; lra. }
  rewrite EQ. eapply Rle_trans; [exact G3|]. assert (0 <= U * Q) by (apply Rmult_le_pos; lra).
  rewrite !(Rmult_assoc _ U Q). apply Rplus_le_compat; [apply Rmult_le_compat_r; lra|lra].
Qed.
