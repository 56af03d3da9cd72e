From Verif Require Import Base BaseProofs DateModel DateSpec.
Open Scope Z_scope.

(** ** Leap years *)
Lemma leapb_iff y : leapb y = true <-> leap y.
Proof.
  unfold leapb, leap. rewrite andb_true_iff, orb_true_iff, negb_true_iff, !Z.eqb_eq, Z.eqb_neq.
  rewrite !Z.mod_divide by lia. reflexivity.
Qed.

Lemma rem_zero_iff a b : b <> 0 -> Z.rem a b = 0 <-> a mod b = 0.
Proof. intro. rewrite Z.rem_divide, Z.mod_divide by auto. reflexivity. Qed.

Lemma is_leap_year_eq y : is_leap_year y = if leapb y then 1 else 0.
Proof.
  unfold is_leap_year, leapb. change 3 with (Z.ones 2). change 15 with (Z.ones 4).
  rewrite !Z.land_ones by lia. change (2^2) with 4. change (2^4) with 16.
  assert (E : (y mod 4 =? 0) && (negb (Z.rem y 25 =? 0) || (y mod 16 =? 0)) =
              (y mod 4 =? 0) && (negb (y mod 100 =? 0) || (y mod 400 =? 0))).
  { apply Bool.eq_iff_eq_true.
    rewrite !andb_true_iff, !orb_true_iff, !negb_true_iff, !Z.eqb_eq, !Z.eqb_neq.
    rewrite rem_zero_iff by lia. Z.div_mod_to_equations. lia. }
  rewrite E. reflexivity.
Qed.

Lemma leapb_add400 y k : leapb (y + k * 400) = leapb y.
Proof.
  unfold leapb. replace (y + k * 400) with (y + (k * 100) * 4) at 1 by ring. rewrite Z.mod_add by lia.
  replace (y + k * 400) with (y + (k * 4) * 100) at 1 by ring. rewrite Z.mod_add by lia.
  rewrite Z.mod_add by lia. reflexivity.
Qed.

Definition shift_year (k : Z) (d : date) : date := mk_date (year d + k * 400) (month d) (day d).
Lemma month_length_shift y k m : month_length (y + k * 400) m = month_length y m.
Proof. unfold month_length. rewrite leapb_add400. reflexivity. Qed.
Lemma next_day_shift k d : next_day (shift_year k d) = shift_year k (next_day d).
Proof.
  unfold next_day, shift_year; cbn [year month day]. rewrite month_length_shift.
  destruct (day d <? month_length (year d) (month d)); [reflexivity|].
  destruct (month d <? 12); [reflexivity|]. cbn [year month day]. f_equal. ring.
Qed.

(** ** date_from_days *)
(** One era. *)
Definition era_date (doe : Z) : date :=
  let yoe := dfd_yoe doe in
  let doy := dfd_doy doe yoe in
  let mon := dfd_mon doy in
  mk_date (yoe + (if dfd_month mon <=? 2 then 1 else 0)) (dfd_month mon) (dfd_day doy mon).

Lemma era_floor days : dfd_era days = (days + 719468) / 146097.
Proof.
  unfold dfd_era. cbv zeta. destruct (Z.geb_spec (days + 719468) 0).
  - apply Z.quot_div_nonneg; lia.
  - assert (0 <= - (days + 719468 - 146096)) by lia.
    rewrite <- (Z.opp_involutive (days + 719468 - 146096)).
    rewrite Z.quot_opp_l by lia. rewrite Z.quot_div_nonneg by lia.
    Z.div_mod_to_equations. lia.
Qed.
Lemma doe_mod days : dfd_doe days = (days + 719468) mod 146097.
Proof. unfold dfd_doe. rewrite era_floor. Z.div_mod_to_equations. lia. Qed.
Lemma doe_range days : 0 <= dfd_doe days < 146097.
Proof. rewrite doe_mod. apply Z.mod_pos_bound. lia. Qed.

Lemma date_from_days_era days : date_from_days days = shift_year (dfd_era days) (era_date (dfd_doe days)).
Proof. unfold date_from_days, shift_year, era_date; cbv zeta; cbn [year month day]. f_equal. ring. Qed.

Definition date_eqb (a b : date) : bool :=
  (year a =? year b) && (month a =? month b) && (day a =? day b).
Lemma date_eqb_eq a b : date_eqb a b = true <-> a = b.
Proof.
  unfold date_eqb. rewrite !andb_true_iff, !Z.eqb_eq. destruct a, b; simpl. split; [intros [[-> ->] ->]; auto|].
  intros [= -> -> ->]; auto.
Qed.
Definition valid_dateb (d : date) : bool :=
  (1 <=? month d) && (month d <=? 12) && (1 <=? day d) && (day d <=? month_length (year d) (month d)).
Lemma valid_dateb_iff d : valid_dateb d = true <-> valid_date d.
Proof. unfold valid_dateb, valid_date. rewrite !andb_true_iff, !Z.leb_le. lia. Qed.

(** First day of the March-based year [y] of the era. *)
Definition ystart (y : Z) : Z := 365 * y + y / 4 - y / 100 + y / 400.
Lemma yoe_spec doe : 0 <= doe < 146097 -> 0 <= dfd_yoe doe <= 399 /\ ystart (dfd_yoe doe) <= doe < ystart (dfd_yoe doe + 1).
Proof.
  intro H. unfold dfd_yoe.
  rewrite (Z.quot_div_nonneg doe 1460), (Z.quot_div_nonneg doe 36524), (Z.quot_div_nonneg doe 146096) by lia.
  assert (Q1 : 1460 * (doe / 1460) <= doe < 1460 * (doe / 1460) + 1460) by (Z.div_mod_to_equations; lia).
  assert (Q2 : 36524 * (doe / 36524) <= doe < 36524 * (doe / 36524) + 36524) by (Z.div_mod_to_equations; lia).
  assert (Q3 : 146096 * (doe / 146096) <= doe < 146096 * (doe / 146096) + 146096) by (Z.div_mod_to_equations; lia).
  set (a := doe / 1460) in *. set (b := doe / 36524) in *. set (c := doe / 146096) in *.
  assert (C : c = 0 \/ c = 1) by lia. assert (B : b = 0 \/ b = 1 \/ b = 2 \/ b = 3 \/ b = 4) by lia.
  rewrite Z.quot_div_nonneg by lia. set (y := (doe - a + b - c) / 365).
  assert (Y : 365 * y <= doe - a + b - c < 365 * y + 365) by (unfold y; Z.div_mod_to_equations; lia).
  clearbody y a b c. unfold ystart.
  assert (YB : 0 <= y <= 399) by lia. split; [lia|].
  assert (E1 : exists p r, y = 100 * p + r /\ 0 <= r < 100) by (exists (y/100), (y mod 100); Z.div_mod_to_equations; lia).
  destruct E1 as (p & r & E1 & R1).
  assert (E2 : exists u v, r = 4 * u + v /\ 0 <= v < 4) by (exists (r/4), (r mod 4); Z.div_mod_to_equations; lia).
  destruct E2 as (u & v & E2 & R2).
  assert (P : p = 0 \/ p = 1 \/ p = 2 \/ p = 3) by lia.
  destruct C as [-> | ->]; destruct B as [->|[->|[->|[->| ->]]]]; try lia; destruct P as [->|[->|[->| ->]]]; try lia; (split; [Z.div_mod_to_equations; lia|Z.div_mod_to_equations; lia]).
Qed.

Lemma ystart_mono a b : a <= b -> ystart a <= ystart b.
Proof. intro H. unfold ystart. Z.div_mod_to_equations. lia. Qed.
Lemma yoe_unique doe y : 0 <= doe < 146097 -> ystart y <= doe < ystart (y + 1) -> dfd_yoe doe = y.
Proof.
  intros H Hy. destruct (yoe_spec doe H) as [_ Hz]. set (z := dfd_yoe doe) in *.
  destruct (Z.lt_trichotomy z y) as [L|[L|L]]; auto.
  - assert (M := ystart_mono (z + 1) y ltac:(lia)). lia.
  - assert (M := ystart_mono (y + 1) z ltac:(lia)). lia.
Qed.
Lemma ystart_succ y : ystart (y + 1) = ystart y + (if leapb (y + 1) then 366 else 365).
Proof.
  unfold ystart, leapb.
  destruct (Z.eqb_spec ((y + 1) mod 4) 0), (Z.eqb_spec ((y + 1) mod 100) 0), (Z.eqb_spec ((y + 1) mod 400) 0);
    cbn [negb andb orb]; Z.div_mod_to_equations; lia.
Qed.
Lemma doy_eq doe : 0 <= doe < 146097 -> dfd_doy doe (dfd_yoe doe) = doe - ystart (dfd_yoe doe).
Proof.
  intro H. destruct (yoe_spec doe H) as [Y _]. unfold dfd_doy, ystart.
  rewrite (Z.quot_div_nonneg _ 4), (Z.quot_div_nonneg _ 100) by lia.
  rewrite (Z.div_small _ 400) by lia. lia.
Qed.

(** The months of one March-based year, whose February has 29 days when [lp]. *)
Definition doy_month (doy : Z) : Z := dfd_month (dfd_mon doy).
Definition doy_day (doy : Z) : Z := dfd_day doy (dfd_mon doy).
Definition mlen (lp : bool) (m : Z) : Z :=
  if m =? 2 then (if lp then 29 else 28)
  else if (m =? 4) || (m =? 6) || (m =? 9) || (m =? 11) then 30 else 31.
Fixpoint check_range (P : Z -> bool) (n : nat) (i : Z) : bool :=
  match n with O => true | S k => P i && check_range P k (i + 1) end.
Lemma check_range_spec P n : forall i, check_range P n i = true -> forall j, i <= j < i + Z.of_nat n -> P j = true.
Proof.
  induction n as [|n IH]; intros i H j Hj; [lia|]. cbn [check_range] in H.
  apply andb_true_iff in H. destruct H as [H1 H2]. destruct (Z.eq_dec i j) as [<-|]; auto.
  apply (IH (i + 1)); auto. lia.
Qed.
(** Consecutive days of the year, apart from its last day. *)
Definition doy_check (lp : bool) (doy : Z) : bool :=
  (1 <=? doy_month doy) && (doy_month doy <=? 12) && (1 <=? doy_day doy) &&
  (doy_day doy <=? mlen lp (doy_month doy)) &&
  (0 <=? dfd_mon doy) && (dfd_mon doy <=? 11) &&
  ((doy =? (if lp then 365 else 364)) ||
   (if doy_day doy <? mlen lp (doy_month doy)
    then (doy_month (doy + 1) =? doy_month doy) && (doy_day (doy + 1) =? doy_day doy + 1)
    else (doy_day (doy + 1) =? 1) &&
         (if doy_month doy <? 12 then (doy_month (doy + 1) =? doy_month doy + 1) && negb (doy_month doy =? 2)
          else doy_month (doy + 1) =? 1))).
Lemma doy_check_all lp : check_range (doy_check lp) (if lp then 366 else 365) 0 = true.
Proof. destruct lp; vm_compute; reflexivity. Qed.
Lemma doy_last (lp : bool) : doy_month (if lp then 365 else 364) = 2 /\ doy_day (if lp then 365 else 364) = mlen lp 2.
Proof. destruct lp; split; reflexivity. Qed.
Lemma doy_first : doy_month 0 = 3 /\ doy_day 0 = 1.
Proof. split; reflexivity. Qed.

Lemma doy_range doe : 0 <= doe < 146097 ->
  0 <= dfd_doy doe (dfd_yoe doe) < (if leapb (dfd_yoe doe + 1) then 366 else 365).
Proof.
  intro H. rewrite doy_eq by auto. destruct (yoe_spec doe H) as [_ Y]. rewrite ystart_succ in Y. lia.
Qed.

Lemma doy_facts (lp : bool) doy : 0 <= doy < (if lp then 366 else 365) -> doy_check lp doy = true.
Proof.
  intro H. apply (check_range_spec _ _ _ (doy_check_all lp)). destruct lp; lia.
Qed.

(** The length of a month only depends on the leap flag of the March-based year. *)
Lemma month_length_mlen' yoe m :
  month_length (yoe + (if m <=? 2 then 1 else 0)) m = mlen (leapb (yoe + 1)) m.
Proof.
  unfold month_length, mlen. destruct (Z.eqb_spec m 2) as [->|]; reflexivity.
Qed.

Lemma era_date_eq doe : era_date doe =
  let doy := dfd_doy doe (dfd_yoe doe) in
  mk_date (dfd_yoe doe + (if doy_month doy <=? 2 then 1 else 0)) (doy_month doy) (doy_day doy).
Proof. reflexivity. Qed.

Lemma era_valid doe : 0 <= doe < 146097 -> valid_date (era_date doe).
Proof.
  intro H. rewrite era_date_eq. cbv zeta. unfold valid_date; cbn [year month day].
  rewrite month_length_mlen'. assert (C := doy_facts _ _ (doy_range doe H)).
  unfold doy_check in C. rewrite !andb_true_iff, !Z.leb_le in C. lia.
Qed.
Lemma era_bounds doe : 0 <= doe < 146097 ->
  0 <= dfd_yoe doe <= 399 /\ 0 <= dfd_doy doe (dfd_yoe doe) <= 365 /\ 0 <= dfd_mon (dfd_doy doe (dfd_yoe doe)) <= 11.
Proof.
  intro H. destruct (yoe_spec doe H) as [Y _]. assert (R := doy_range doe H).
  assert (C := doy_facts _ _ R). unfold doy_check in C. rewrite !andb_true_iff, !Z.leb_le in C.
  destruct (leapb (dfd_yoe doe + 1)); lia.
Qed.

(** The successor within the era, and across two eras. *)
Lemma era_step_gen doe : 0 <= doe < 146097 ->
  next_day (era_date doe) =
  if doe =? 146096 then shift_year 1 (era_date 0) else era_date (doe + 1).
Proof.
  intro H. rewrite (era_date_eq doe). cbv zeta.
  assert (R := doy_range doe H). assert (C := doy_facts _ _ R).
  destruct (yoe_spec doe H) as [Y1 Y2]. assert (D := doy_eq doe H).
  set (y := dfd_yoe doe) in *. set (n := dfd_doy doe y) in *. set (lp := leapb (y + 1)) in *.
  unfold next_day; cbn [year month day]. rewrite month_length_mlen'. fold lp.
  unfold doy_check in C. rewrite !andb_true_iff, orb_true_iff, !Z.leb_le in C.
  destruct C as ((((((C1 & C2) & C3) & C4) & C5) & C6) & C7).
  destruct (Z.eq_dec n (if lp then 365 else 364)) as [E|E].
  - (* last day of February *)
    destruct (doy_last lp) as [L1 L2]. rewrite E, L1, L2.
    destruct (Z.ltb_spec (mlen lp 2) (mlen lp 2)) as [|_]; [lia|]. cbn [Z.ltb Z.compare Pos.compare Pos.compare_cont].
    change (2 <=? 2) with true. change (2 <? 12) with true. cbv iota.
    assert (S := ystart_succ y). fold lp in S.
    assert (DE : doe + 1 = ystart (y + 1)) by (destruct lp; lia).
    destruct (Z.eqb_spec doe 146096) as [E2|E2].
    + subst doe. assert (y = 399) as -> by reflexivity. reflexivity.
    + assert (Y3 : y + 1 <= 399).
      { destruct (Z.eq_dec y 399) as [->|]; [|lia]. change (ystart (399 + 1)) with 146097 in DE. lia. }
      rewrite era_date_eq. cbv zeta.
      assert (YE : dfd_yoe (doe + 1) = y + 1).
      { apply yoe_unique; [lia|]. rewrite DE. assert (S2 := ystart_succ (y + 1)). destruct (leapb (y + 1 + 1)); lia. }
      rewrite (doy_eq (doe + 1)) by lia. rewrite YE, DE, Z.sub_diag. destruct doy_first as [-> ->].
      change (3 <=? 2) with false. cbv iota. rewrite Z.add_0_r. reflexivity.
  - assert (DE : (doe =? 146096) = false).
    { apply Z.eqb_neq. intro X. apply E. subst doe. assert (y = 399) as EY by reflexivity.
      unfold lp, n. rewrite EY. reflexivity. }
    rewrite DE. apply Z.eqb_neq in DE.
    destruct C7 as [C7|C7]; [apply Z.eqb_eq in C7; contradiction|].
    assert (YE : dfd_yoe (doe + 1) = y).
    { apply yoe_unique; [lia|]. split; [lia|]. rewrite ystart_succ. fold lp. destruct lp; lia. }
    rewrite (era_date_eq (doe + 1)). cbv zeta. rewrite (doy_eq (doe + 1)) by lia. rewrite YE.
    replace (doe + 1 - ystart y) with (n + 1) by lia.
    destruct (doy_day n <? mlen lp (doy_month n)).
    + apply andb_true_iff in C7. rewrite !Z.eqb_eq in C7. destruct C7 as [-> ->]. reflexivity.
    + apply andb_true_iff in C7. destruct C7 as [C7 C8]. apply Z.eqb_eq in C7. rewrite C7.
      destruct (Z.ltb_spec (doy_month n) 12) as [LM|LM].
      * apply andb_true_iff in C8. destruct C8 as [C8 C9]. apply Z.eqb_eq in C8. rewrite C8.
        apply negb_true_iff, Z.eqb_neq in C9. f_equal.
        destruct (Z.leb_spec (doy_month n) 2), (Z.leb_spec (doy_month n + 1) 2); lia.
      * apply Z.eqb_eq in C8. rewrite C8. assert (doy_month n = 12) as -> by lia. f_equal.
        change (12 <=? 2) with false. change (1 <=? 2) with true. cbv iota. lia.
Qed.
Lemma era_step doe : 0 <= doe < 146096 -> next_day (era_date doe) = era_date (doe + 1).
Proof. intro H. rewrite era_step_gen by lia. destruct (Z.eqb_spec doe 146096); [lia|reflexivity]. Qed.
Lemma era_check_last : next_day (era_date 146096) = shift_year 1 (era_date 0).
Proof. reflexivity. Qed.

Lemma shift_valid k d : valid_date (shift_year k d) <-> valid_date d.
Proof. unfold valid_date, shift_year; cbn [year month day]. rewrite month_length_shift. reflexivity. Qed.
Lemma date_valid n : valid_date (date_from_days n).
Proof. rewrite date_from_days_era. apply shift_valid. apply era_valid. apply doe_range. Qed.

Lemma date_succ n : date_from_days (n + 1) = next_day (date_from_days n).
Proof.
  rewrite !date_from_days_era, next_day_shift.
  assert (R := doe_range n). rewrite !doe_mod, !era_floor in *.
  destruct (Z.eq_dec ((n + 719468) mod 146097) 146096) as [E|E].
  - assert ((n + 1 + 719468) mod 146097 = 0) as -> by (Z.div_mod_to_equations; lia).
    assert ((n + 1 + 719468) / 146097 = (n + 719468) / 146097 + 1) as -> by (Z.div_mod_to_equations; lia).
    rewrite E. rewrite era_check_last. unfold shift_year; cbn [year month day]. f_equal. ring.
  - rewrite era_step by lia.
    assert ((n + 1 + 719468) mod 146097 = (n + 719468) mod 146097 + 1) as -> by (Z.div_mod_to_equations; lia).
    assert ((n + 1 + 719468) / 146097 = (n + 719468) / 146097) as -> by (Z.div_mod_to_equations; lia).
    reflexivity.
Qed.
Lemma date_zero : date_from_days 0 = mk_date 1970 1 1.
Proof. reflexivity. Qed.

Lemma date_lt_trans a b c : date_lt a b -> date_lt b c -> date_lt a c.
Proof. unfold date_lt. lia. Qed.
Lemma date_lt_irrefl a : ~ date_lt a a.
Proof. unfold date_lt. lia. Qed.
Lemma next_day_lt d : date_lt d (next_day d).
Proof.
  unfold next_day, date_lt. destruct (Z.ltb_spec (day d) (month_length (year d) (month d))); cbn [year month day]; [lia|].
  destruct (Z.ltb_spec (month d) 12); cbn [year month day]; lia.
Qed.
Lemma date_mono_nat k : forall n, date_lt (date_from_days n) (date_from_days (n + 1 + Z.of_nat k)).
Proof.
  induction k as [|k IH]; intro n.
  - rewrite Z.add_0_r, date_succ. apply next_day_lt.
  - apply date_lt_trans with (date_from_days (n + 1 + Z.of_nat k)); auto.
    replace (n + 1 + Z.of_nat (S k)) with (n + 1 + Z.of_nat k + 1) by lia. rewrite date_succ. apply next_day_lt.
Qed.
Lemma date_mono n m : n < m -> date_lt (date_from_days n) (date_from_days m).
Proof. intro H. replace m with (n + 1 + Z.of_nat (Z.to_nat (m - n - 1))) by lia. apply date_mono_nat. Qed.
Lemma date_inj n m : date_from_days n = date_from_days m -> n = m.
Proof.
  intro E. destruct (Z.lt_trichotomy n m) as [H|[H|H]]; auto; apply date_mono in H; rewrite E in H;
  exfalso; eapply date_lt_irrefl; eauto.
Qed.

Lemma next_day_valid d : valid_date d -> valid_date (next_day d).
Proof.
  unfold valid_date, next_day. intros [H1 H2].
  destruct (Z.ltb_spec (day d) (month_length (year d) (month d))); cbn [year month day]; [lia|].
  destruct (Z.ltb_spec (month d) 12); cbn [year month day]; split; try lia;
  unfold month_length; repeat match goal with |- context[if ?b then _ else _] => destruct b end; lia.
Qed.

