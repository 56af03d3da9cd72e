From Verif Require Import Base BaseProofs DateModel DateSpec DateProofs.
Open Scope Z_scope.

(** Every date of the calendar is reached. The days since January. *)
Lemma month_length_pos y m : 28 <= month_length y m <= 31.
Proof. unfold month_length; repeat match goal with |- context[if ?b then _ else _] => destruct b end; lia. Qed.

Definition cum (y m : Z) : Z :=
  match m with
  | 1 => 0 | 2 => 31 | _ => (if leapb y then 1 else 0) +
    match m with 3 => 59 | 4 => 90 | 5 => 120 | 6 => 151 | 7 => 181 | 8 => 212 | 9 => 243
             | 10 => 273 | 11 => 304 | 12 => 334 | _ => 0 end
  end.
Ltac month_cases H :=
  match type of H with 1 <= ?m <= 12 =>
    let C := fresh in
    assert (C : m = 1 \/ m = 2 \/ m = 3 \/ m = 4 \/ m = 5 \/ m = 6 \/ m = 7 \/ m = 8 \/ m = 9 \/ m = 10 \/ m = 11 \/ m = 12) by lia;
    destruct C as [C|[C|[C|[C|[C|[C|[C|[C|[C|[C|[C|C]]]]]]]]]]]; rewrite C in *; clear C H
  end.
Lemma sum_months_acc n : forall ix acc, sum_months n ix acc = acc + sum_months n ix 0.
Proof.
  induction n as [|n IH]; intros; cbn [sum_months]; [lia|]. rewrite IH. rewrite (IH _ (0 + _)). lia.
Qed.
Lemma dsj_eq d : 1 <= month d <= 12 -> days_since_january d = cum (year d) (month d) + day d - 1.
Proof.
  destruct d as [y m dd]; cbn [year month day]. intro H. unfold days_since_january, cum; cbn [year month day].
  rewrite is_leap_year_eq.
  rewrite sum_months_acc. month_cases H;
  match goal with |- context[sum_months ?a ?b 0] =>
    let v := eval vm_compute in (sum_months a b 0) in change (sum_months a b 0) with v end;
  cbn -[Z.add Z.sub]; destruct (leapb y); lia.
Qed.
Lemma cum_succ y m : 1 <= m < 12 -> cum y (m + 1) = cum y m + month_length y m.
Proof.
  intro H. assert (H' : 1 <= m <= 12) by lia. unfold cum, month_length.
  month_cases H'; simpl; destruct (leapb y); lia.
Qed.
Lemma cum_dec y : cum y 12 + 31 = year_length y.
Proof. unfold cum, year_length. destruct (leapb y); lia. Qed.
Lemma cum_range y m : 1 <= m <= 12 -> 0 <= cum y m /\ cum y m + month_length y m <= year_length y.
Proof.
  intro H. unfold cum, month_length, year_length. month_cases H; simpl; destruct (leapb y); lia.
Qed.

Lemma dsj_range d : valid_date d -> 0 <= days_since_january d < year_length (year d).
Proof.
  intros [H1 H2]. rewrite dsj_eq by auto. destruct (cum_range (year d) (month d) H1). lia.
Qed.
(** The successor is one day later in the year, or January 1st of the next year. *)
Lemma dsj_succ d : valid_date d ->
  (days_since_january d + 1 < year_length (year d) /\ year (next_day d) = year d /\
     days_since_january (next_day d) = days_since_january d + 1) \/
  (days_since_january d + 1 = year_length (year d) /\ next_day d = mk_date (year d + 1) 1 1).
Proof.
  intros V. assert (V2 := next_day_valid d V). destruct V as [H1 H2], V2 as [K1 K2].
  rewrite !dsj_eq by auto. unfold next_day in *.
  destruct (cum_range (year d) (month d) H1) as [A B].
  destruct (Z.ltb_spec (day d) (month_length (year d) (month d))) as [L|L]; cbn [year month day] in *.
  - left. lia.
  - destruct (Z.ltb_spec (month d) 12) as [M|M]; cbn [year month day] in *.
    + left. rewrite cum_succ by lia.
      destruct (cum_range (year d) (month d + 1)) as [A' B']; [lia|]. rewrite cum_succ in B' by lia.
      assert (P := month_length_pos (year d) (month d + 1)). lia.
    + right. assert (month d = 12) as E by lia. rewrite E in *.
      assert (Y := cum_dec (year d)). change (month_length (year d) 12) with 31 in *. split; [lia|reflexivity].
Qed.

Lemma dsj_zero d : valid_date d -> days_since_january d = 0 -> d = mk_date (year d) 1 1.
Proof.
  intros [H1 H2] E. rewrite dsj_eq in E by auto.
  destruct d as [y m dd]; cbn [year month day] in *.
  assert (0 < m - 1 -> 0 < cum y m).
  { intro. unfold cum. month_cases H1; simpl in *; destruct (leapb y); lia. }
  assert (0 <= cum y m) by (apply cum_range; auto). f_equal; lia.
Qed.

Lemma january_first_nat k : forall n, days_since_january (date_from_days n) = Z.of_nat k ->
  date_from_days (n - Z.of_nat k) = mk_date (year (date_from_days n)) 1 1.
Proof.
  induction k as [|k IH]; intros n H.
  - rewrite Z.sub_0_r. apply dsj_zero; [apply date_valid|auto].
  - assert (E : date_from_days n = next_day (date_from_days (n - 1))) by (rewrite <- date_succ; f_equal; lia).
    destruct (dsj_succ (date_from_days (n - 1)) (date_valid _)) as [(A & B & C)|(A & B)].
    + rewrite <- E in *. specialize (IH (n - 1)). rewrite <- B in IH.
      replace (n - Z.of_nat (S k)) with (n - 1 - Z.of_nat k) by lia. apply IH. lia.
    + rewrite <- E in B. rewrite B in H. rewrite dsj_eq in H by (cbn [month]; lia). cbn [year month day cum] in H. lia.
Qed.
Lemma january_first n :
  date_from_days (n - days_since_january (date_from_days n)) = mk_date (year (date_from_days n)) 1 1.
Proof.
  assert (R := dsj_range _ (date_valid n)).
  assert (A := january_first_nat (Z.to_nat (days_since_january (date_from_days n))) n).
  rewrite Z2Nat.id in A by lia. auto.
Qed.

(** Moving inside the same year. *)
Lemma dsj_plus_nat k : forall n, days_since_january (date_from_days n) + Z.of_nat k < year_length (year (date_from_days n)) ->
  year (date_from_days (n + Z.of_nat k)) = year (date_from_days n) /\
  days_since_january (date_from_days (n + Z.of_nat k)) = days_since_january (date_from_days n) + Z.of_nat k.
Proof.
  induction k as [|k IH]; intros n H.
  - rewrite !Z.add_0_r. auto.
  - destruct (IH n) as [I1 I2]; [lia|].
    replace (n + Z.of_nat (S k)) with (n + Z.of_nat k + 1) by lia. rewrite date_succ.
    destruct (dsj_succ (date_from_days (n + Z.of_nat k)) (date_valid _)) as [(A & B & C)|(A & B)].
    + rewrite B, C, I1, I2. split; auto. lia.
    + rewrite I1, I2 in A. lia.
Qed.
(** From any year to the next one. *)
Lemma next_year_first n :
  date_from_days (n - days_since_january (date_from_days n) + year_length (year (date_from_days n)))
  = mk_date (year (date_from_days n) + 1) 1 1.
Proof.
  set (y := year (date_from_days n)). set (j := n - days_since_january (date_from_days n)).
  assert (J : date_from_days j = mk_date y 1 1) by apply january_first.
  assert (L : 365 <= year_length y <= 366) by (unfold year_length; destruct (leapb y); lia).
  assert (S0 : days_since_january (mk_date y 1 1) = 0) by (rewrite dsj_eq; cbn [year month day cum]; lia).
  destruct (dsj_plus_nat (Z.to_nat (year_length y - 1)) j) as [A B].
  { rewrite J, S0. cbn [year]. lia. }
  rewrite J, S0 in B. rewrite J in A. cbn [year] in A. rewrite Z2Nat.id in A, B by lia.
  replace (j + year_length y) with (j + (year_length y - 1) + 1) by lia. rewrite date_succ.
  destruct (dsj_succ (date_from_days (j + (year_length y - 1))) (date_valid _)) as [(C & _)|(C & D)].
  - rewrite A in C. lia.
  - rewrite D, A. reflexivity.
Qed.
Lemma year_first_exists y : exists n, date_from_days n = mk_date y 1 1.
Proof.
  assert (UP : forall k, exists n, date_from_days n = mk_date (1970 + Z.of_nat k) 1 1).
  { induction k as [|k [n IH]]; [exists 0; reflexivity|].
    assert (A := next_year_first n). rewrite IH in A. cbn [year] in A.
    eexists. rewrite A. f_equal. lia. }
  assert (DN : forall k, exists n, date_from_days n = mk_date (1970 - Z.of_nat k) 1 1).
  { induction k as [|k [n IH]]; [exists 0; reflexivity|].
    assert (E : date_from_days n = next_day (date_from_days (n - 1))) by (rewrite <- date_succ; f_equal; lia).
    destruct (dsj_succ (date_from_days (n - 1)) (date_valid _)) as [(A & B & C)|(A & B)].
    - rewrite <- E, IH in C. rewrite dsj_eq in C by (cbn [month]; lia). cbn [year month day cum] in C.
      assert (R := dsj_range _ (date_valid (n - 1))). lia.
    - rewrite <- E, IH in B. apply (f_equal year) in B. cbn [year] in B. assert (F := january_first (n - 1)).
      eexists. rewrite F. f_equal. lia. }
  destruct (Z.le_gt_cases 1970 y).
  - destruct (UP (Z.to_nat (y - 1970))) as [n H1]. exists n. rewrite H1. f_equal. lia.
  - destruct (DN (Z.to_nat (1970 - y))) as [n H1]. exists n. rewrite H1. f_equal. lia.
Qed.

(** A date is determined by its year and the days since January. *)
Lemma dsj_determines a b : valid_date a -> valid_date b -> year a = year b ->
  days_since_january a = days_since_january b -> a = b.
Proof.
  intros [A1 A2] [B1 B2] EY ED. rewrite !dsj_eq in ED by auto.
  destruct a as [y m d], b as [y' m' d']; cbn [year month day] in *. subst y'.
  assert (CM : forall p q, 1 <= p -> p < q -> q <= 12 -> cum y p + month_length y p <= cum y q).
  { intros p q Hp Hpq Hq. assert (p + 1 <= q) by lia.
    assert (G : forall k, p + 1 + Z.of_nat k <= 12 -> cum y p + month_length y p <= cum y (p + 1 + Z.of_nat k)).
    { induction k as [|k IH]; intro HK.
      - rewrite Z.add_0_r, cum_succ by lia. lia.
      - replace (p + 1 + Z.of_nat (S k)) with (p + 1 + Z.of_nat k + 1) by lia. rewrite (cum_succ y (p + 1 + Z.of_nat k)) by lia.
        assert (P := month_length_pos y (p + 1 + Z.of_nat k)). lia. }
    specialize (G (Z.to_nat (q - p - 1))). rewrite Z2Nat.id in G by lia.
    replace (p + 1 + (q - p - 1)) with q in G by lia. apply G. lia. }
  destruct (Z.lt_trichotomy m m') as [L|[L|L]].
  - specialize (CM m m'). lia.
  - subst. f_equal. lia.
  - specialize (CM m' m). lia.
Qed.

Lemma date_onto d : valid_date d -> exists n, date_from_days n = d.
Proof.
  intro V. destruct (year_first_exists (year d)) as [j J].
  assert (R := dsj_range d V).
  assert (S0 : days_since_january (date_from_days j) = 0) by (rewrite J, dsj_eq; cbn [year month day cum]; lia).
  destruct (dsj_plus_nat (Z.to_nat (days_since_january d)) j) as [A B].
  { rewrite S0, J. cbn [year]. lia. }
  rewrite Z2Nat.id in A, B by lia. rewrite J in A. cbn [year] in A.
  exists (j + days_since_january d). apply dsj_determines; auto; [apply date_valid|lia].
Qed.

(** ** weekday *)
Lemma weekday_eq n : weekday n = (n + 4) mod 7.
Proof.
  unfold weekday. destruct (Z.geb_spec n (-4)).
  - apply Z.rem_mod_nonneg; lia.
  - assert (E : Z.rem (n + 5) 7 = - ((- (n + 5)) mod 7)).
    { rewrite <- (Z.opp_involutive (n + 5)) at 1. rewrite Z.rem_opp_l by lia. f_equal. apply Z.rem_mod_nonneg; lia. }
    rewrite E. Z.div_mod_to_equations. lia.
Qed.

(** ** ISO calendar *)
Lemma iso_wd n : Z.rem ((weekday n - 1 + 7) mod 2 ^ 32) 7 + 1 = (n + 3) mod 7 + 1.
Proof.
  rewrite weekday_eq. assert (B := Z.mod_pos_bound (n + 4) 7 ltac:(lia)).
  rewrite (Z.mod_small _ (2 ^ 32)) by lia. rewrite Z.rem_mod_nonneg by lia.
  f_equal. Z.div_mod_to_equations. lia.
Qed.

Lemma iso_week_days_spec yday wday : -366 <= yday -> 0 <= wday <= 6 ->
  exists k weeks, 0 <= k <= 6 /\ yday - (wday + 6) mod 7 + 3 = 7 * weeks + k /\
    iso_week_days yday wday = 7 * weeks + (wday + 6) mod 7.
Proof.
  intros H1 H2. unfold iso_week_days. change ((Z.quot 366 7 + 2) * 7) with 378.
  rewrite Z.rem_mod_nonneg by lia.
  set (k := (yday - wday + 4 + 378) mod 7).
  exists k, ((yday - (wday + 6) mod 7 + 3 - k) / 7).
  assert (K : 0 <= k < 7) by (apply Z.mod_pos_bound; lia).
  assert (D : (yday - (wday + 6) mod 7 + 3 - k) mod 7 = 0) by (unfold k; Z.div_mod_to_equations; lia).
  split; [lia|]. Z.div_mod_to_equations. lia.
Qed.

Lemma year_after n k : 0 <= k -> days_since_january (date_from_days n) + k >= year_length (year (date_from_days n)) ->
  k <= 3 ->
  year (date_from_days (n + k)) = year (date_from_days n) + 1 /\
  days_since_january (date_from_days (n + k)) = days_since_january (date_from_days n) + k - year_length (year (date_from_days n)).
Proof.
  intros Hk H Hk3. set (y := year (date_from_days n)) in *. set (s := days_since_january (date_from_days n)) in *.
  assert (R : 0 <= s < year_length y) by apply dsj_range, date_valid.
  assert (N : date_from_days (n - s + year_length y) = mk_date (y + 1) 1 1) by apply next_year_first.
  assert (S0 : days_since_january (date_from_days (n - s + year_length y)) = 0)
    by (rewrite N, dsj_eq; cbn [year month day cum]; lia).
  destruct (dsj_plus_nat (Z.to_nat (s + k - year_length y)) (n - s + year_length y)) as [A B].
  { rewrite S0, N. cbn [year]. unfold year_length at 2. destruct (leapb (y + 1)); lia. }
  rewrite N in A. rewrite S0 in B. cbn [year] in A. rewrite Z2Nat.id in A, B by lia.
  replace (n - s + year_length y + (s + k - year_length y)) with (n + k) in A, B by ring. split; auto.
Qed.
Lemma year_same n k : 0 <= days_since_january (date_from_days n) + k < year_length (year (date_from_days n)) ->
  year (date_from_days (n + k)) = year (date_from_days n) /\
  days_since_january (date_from_days (n + k)) = days_since_january (date_from_days n) + k.
Proof.
  intro H. set (y := year (date_from_days n)) in *. set (s := days_since_january (date_from_days n)) in *.
  assert (N : date_from_days (n - s) = mk_date y 1 1) by apply january_first.
  assert (S0 : days_since_january (date_from_days (n - s)) = 0)
    by (rewrite N, dsj_eq; cbn [year month day cum]; lia).
  destruct (dsj_plus_nat (Z.to_nat (s + k)) (n - s)) as [A B].
  { rewrite S0, N. cbn [year]. lia. }
  rewrite N in A. rewrite S0 in B. cbn [year] in A. rewrite Z2Nat.id in A, B by lia.
  replace (n - s + (s + k)) with (n + k) in A, B by ring. split; auto.
Qed.
Lemma year_before n k : days_since_january (date_from_days n) + k < 0 -> -3 <= k ->
  year (date_from_days (n + k)) = year (date_from_days n) - 1 /\
  days_since_january (date_from_days (n + k)) = days_since_january (date_from_days n) + k + year_length (year (date_from_days n) - 1).
Proof.
  intros H Hk. set (y := year (date_from_days n)) in *. set (s := days_since_january (date_from_days n)) in *.
  assert (R : 0 <= s < year_length y) by apply dsj_range, date_valid.
  assert (N : date_from_days (n - s) = mk_date y 1 1) by apply january_first.
  assert (E : date_from_days (n - s) = next_day (date_from_days (n - s - 1))) by (rewrite <- date_succ; f_equal; lia).
  destruct (dsj_succ (date_from_days (n - s - 1)) (date_valid _)) as [(A & B & C)|(A & B)].
  { rewrite <- E, N in C. rewrite dsj_eq in C by (cbn [month]; lia). cbn [year month day cum] in C.
    assert (R2 := dsj_range _ (date_valid (n - s - 1))). lia. }
  rewrite <- E, N in B. apply (f_equal year) in B. cbn [year] in B.
  assert (Y : year (date_from_days (n - s - 1)) = y - 1) by lia. rewrite Y in A.
  destruct (year_same (n - s - 1) (k + s + 1)) as [C D].
  { rewrite Y. unfold year_length in *. destruct (leapb (y - 1)); lia. }
  rewrite Y in C. replace (n - s - 1 + (k + s + 1)) with (n + k) in C, D by ring. split; [auto|lia].
Qed.

Lemma isocalendar_spec n :
  let th := date_from_days (thursday_of_week n) in
  isocalendar n = mk_iso (year th) (days_since_january th / 7 + 1) ((n + 3) mod 7 + 1).
Proof.
  cbv zeta. unfold isocalendar. rewrite iso_wd. cbv zeta.
  set (s := days_since_january (date_from_days n)). set (y := year (date_from_days n)).
  assert (R : 0 <= s < year_length y) by apply dsj_range, date_valid.
  assert (W : 0 <= weekday n <= 6) by (rewrite weekday_eq; assert (B := Z.mod_pos_bound (n + 4) 7 ltac:(lia)); lia).
  assert (WE : (weekday n + 6) mod 7 = (n + 3) mod 7) by (rewrite weekday_eq; Z.div_mod_to_equations; lia).
  assert (M : 0 <= (n + 3) mod 7 < 7) by (apply Z.mod_pos_bound; lia).
  set (i := (n + 3) mod 7) in *.
  assert (LY : forall z, 365 + is_leap_year z = year_length z) by (intro z; rewrite is_leap_year_eq; unfold year_length; destruct (leapb z); lia).
  assert (LL : forall z, 365 <= year_length z <= 366) by (intro z; unfold year_length; destruct (leapb z); lia).
  rewrite !LY. unfold thursday_of_week. fold i.
  replace (n - i + 3) with (n + (3 - i)) by ring.
  destruct (iso_week_days_spec s (weekday n)) as (k & w & Hk & HT & HW); [lia|lia|]. rewrite WE in HT, HW.
  rewrite HW. destruct (Z.ltb_spec (7 * w + i) 0) as [L|L].
  - destruct (iso_week_days_spec (s + year_length (y - 1)) (weekday n)) as (k2 & w2 & Hk2 & HT2 & HW2); [specialize (LL (y-1)); lia|lia|].
    rewrite WE in HT2, HW2. rewrite HW2.
    destruct (year_before n (3 - i)) as [A B]; [fold s; lia|lia|]. fold s y in A, B. rewrite A, B.
    f_equal. f_equal. specialize (LL (y - 1)).
    rewrite Z.quot_div_nonneg by lia. Z.div_mod_to_equations. lia.
  - destruct (iso_week_days_spec (s - year_length y) (weekday n)) as (k2 & w2 & Hk2 & HT2 & HW2); [specialize (LL y); lia|lia|].
    rewrite WE in HT2, HW2. rewrite HW2. destruct (Z.leb_spec 0 (7 * w2 + i)) as [L2|L2].
    + destruct (year_after n (3 - i)) as [A B]; try (fold s y); [lia|lia|lia|]. fold s y in A, B. rewrite A, B.
      f_equal. f_equal. rewrite Z.quot_div_nonneg by lia. Z.div_mod_to_equations. lia.
    + destruct (year_same n (3 - i)) as [A B]; [fold s y; lia|]. fold s y in A, B. rewrite A, B.
      f_equal. f_equal. rewrite Z.quot_div_nonneg by lia. Z.div_mod_to_equations. lia.
Qed.

(** ** Seconds and fractions *)
Lemma epoch_spec oom t : 0 < oom -> epoch oom t = (t / oom, t mod oom).
Proof.
  intro H. unfold epoch. cbv zeta.
  destruct (Z.ltb_spec (Z.rem t oom) 0) as [L|L].
  - assert (Q := Z.quot_rem' t oom). assert (Bn := Z.rem_bound_abs t oom ltac:(lia)).
    f_equal; [apply Z.div_unique_pos with (Z.rem t oom + oom)|apply Z.mod_unique_pos with (Z.quot t oom - 1)]; lia.
  - assert (Q := Z.quot_rem' t oom). assert (Bn := Z.rem_bound_abs t oom ltac:(lia)).
    f_equal; [apply Z.div_unique_pos with (Z.rem t oom)|apply Z.mod_unique_pos with (Z.quot t oom)]; lia.
Qed.
Lemma days_since_epoch_spec oom t : 0 < oom ->
  days_since_epoch oom t = (t / oom / 86400, t / oom, t mod oom).
Proof.
  intro H. unfold days_since_epoch. rewrite epoch_spec by auto. cbv zeta iota. unfold kSecondsInDay.
  f_equal. f_equal. set (s := t / oom).
  assert (Q := Z.quot_rem' s 86400). assert (B : Z.abs (Z.rem s 86400) < 86400).
  { assert (Bn := Z.rem_bound_abs s 86400 ltac:(lia)). lia. }
  destruct (Z.ltb_spec (Z.rem s 86400) 0); Z.div_mod_to_equations; lia.
Qed.
Lemma time_spec s :
  let r := time_from_seconds s in
  0 <= hour r < 24 /\ 0 <= minute r < 60 /\ 0 <= second r < 60 /\
  hour r * 3600 + minute r * 60 + second r = s mod 86400.
Proof.
  cbv zeta. unfold time_from_seconds, kSecondsInDay, kSecondsInHour, kSecondsInMinute.
  assert (E : (if Z.rem s 86400 <? 0 then Z.rem s 86400 + 86400 else Z.rem s 86400) = s mod 86400).
  { assert (Q := Z.quot_rem' s 86400). assert (B : Z.abs (Z.rem s 86400) < 86400).
    { assert (Bn := Z.rem_bound_abs s 86400 ltac:(lia)). lia. }
    destruct (Z.ltb_spec (Z.rem s 86400) 0); Z.div_mod_to_equations; lia. }
  cbv zeta. rewrite E. cbn [hour minute second].
  assert (M := Z.mod_pos_bound s 86400 ltac:(lia)). set (m := s mod 86400) in *.
  rewrite !Z.rem_mod_nonneg, !Z.quot_div_nonneg; try lia;
    try (Z.div_mod_to_equations; lia).
  all: try (rewrite Z.rem_mod_nonneg by lia; Z.div_mod_to_equations; lia).
Qed.
Lemma oom_pos r o : order_of_magnitude r = Ok o -> 0 < o.
Proof. destruct r; simpl; intros [= <-]; lia. Qed.

Lemma since_january_math r o t : order_of_magnitude r = Ok o ->
  let '(days, seconds, frac) := days_since_epoch o t in
  let n := days_since_january (date_from_days days) in
  let hms := time_from_seconds seconds in
  (n * 86400 + hour hms * 3600 + minute hms * 60 + second hms) * o + frac
  = t - (days - n) * 86400 * o /\ 0 <= frac < o /\ days = t / o / 86400 /\
  n * 86400 <= n * 86400 + hour hms * 3600 + minute hms * 60 + second hms < (n + 1) * 86400.
Proof.
  intro H. apply oom_pos in H. rewrite days_since_epoch_spec by auto. cbv zeta iota.
  assert (NR := dsj_range _ (date_valid (t / o / 86400))).
  set (n := days_since_january _) in *. destruct (time_spec (t / o)) as (A & B & C & D).
  set (hms := time_from_seconds (t / o)) in *.
  assert (M := Z.mod_pos_bound t o H). assert (M2 := Z.mod_pos_bound (t / o) 86400 ltac:(lia)).
  assert (E1 := Z.div_mod t o ltac:(lia)). assert (E2 := Z.div_mod (t / o) 86400 ltac:(lia)).
  split; [|split; [lia|split; [reflexivity|lia]]].
  replace (n * 86400 + hour hms * 3600 + minute hms * 60 + second hms) with (n * 86400 + (t / o) mod 86400) by lia.
  nia.
Qed.

(** ** dtype text *)
Lemma parse_unit_name r : parse_unit (unit_name r) = Ok r.
Proof. destruct r; reflexivity. Qed.

Lemma regex_pairs_iff ku : In ku regex_pairs <-> exists k r, ku = (kind_name k, unit_name r).
Proof.
  split.
  - unfold regex_pairs. change regex_units with (map unit_name all_resolutions). rewrite in_app_iff, !in_map_iff.
    intros [(u & <- & H)|(u & <- & H)]; apply in_map_iff in H; destruct H as (r & <- & _);
    [exists kDatetime64, r|exists kTimedelta64, r]; reflexivity.
  - intros (k & r & ->). destruct k, r; simpl; tauto.
Qed.

Lemma prefix_iff a : forall b, String.prefix a b = true <-> exists c, b = (a ++ c)%string.
Proof.
  induction a as [|x a IH]; intros b; simpl.
  - split; [intros _; exists b; reflexivity|]. intros _. destruct b; reflexivity.
  - destruct b as [|y b].
    + split; [discriminate|intros [c H]; discriminate].
    + change (String.prefix (String x a) (String y b)) with (if Ascii.ascii_dec x y then String.prefix a b else false).
      destruct (Ascii.ascii_dec x y) as [->|N].
      * rewrite IH. split; intros [c H]; exists c; [rewrite H; reflexivity|injection H; auto].
      * split; [discriminate|]. intros [c H]. injection H as E _. congruence.
Qed.

Lemma find_none_iff s : find (fun ku => String.prefix (regex_text ku) s) regex_pairs = None <->
  forall k r post, s <> (dtype_string k r ++ post)%string.
Proof.
  split.
  - intros H k r post ->.
    assert (P := find_none _ _ H (kind_name k, unit_name r) (proj2 (regex_pairs_iff _) (ex_intro _ k (ex_intro _ r eq_refl)))).
    cbv beta in P. change (regex_text (kind_name k, unit_name r)) with (dtype_string k r) in P.
    assert (T : String.prefix (dtype_string k r) (dtype_string k r ++ post) = true) by (apply prefix_iff; eexists; reflexivity).
    congruence.
  - intro H. destruct (find _ regex_pairs) as [ku|] eqn:F; auto.
    apply find_some in F. destruct F as [I P]. apply regex_pairs_iff in I. destruct I as (k & r & ->).
    apply prefix_iff in P. destruct P as [c ->]. exfalso. apply (H k r c). reflexivity.
Qed.
Lemma find_some_iff s ku : find (fun ku => String.prefix (regex_text ku) s) regex_pairs = Some ku ->
  exists k r post, ku = (kind_name k, unit_name r) /\ s = (dtype_string k r ++ post)%string.
Proof.
  intro F. apply find_some in F. destruct F as [I P]. apply regex_pairs_iff in I. destruct I as (k & r & ->).
  apply prefix_iff in P. destruct P as [c ->]. exists k, r, c. auto.
Qed.

Lemma regex_search_spec s :
  match regex_search s with
  | None => forall pre k r post, s <> (pre ++ dtype_string k r ++ post)%string
  | Some ku => exists pre k r post, ku = (kind_name k, unit_name r) /\ s = (pre ++ dtype_string k r ++ post)%string /\
      forall pre' k' r' post', s = (pre' ++ dtype_string k' r' ++ post')%string -> (String.length pre <= String.length pre')%nat
  end.
Proof.
  induction s as [|c s IH].
  - cbn [regex_search]. destruct (find _ regex_pairs) as [ku|] eqn:F.
    + apply find_some_iff in F. destruct F as (k & r & post & -> & E). exists ""%string, k, r, post. split; auto. split; auto.
      intros; simpl; lia.
    + intros pre k r post E. destruct pre; [|discriminate]. revert E. apply (proj1 (find_none_iff _) F).
  - cbn [regex_search]. destruct (find _ regex_pairs) as [ku|] eqn:F.
    + apply find_some_iff in F. destruct F as (k & r & post & -> & E). exists ""%string, k, r, post. split; auto. split; auto.
      intros; simpl; lia.
    + assert (NF := proj1 (find_none_iff _) F). destruct (regex_search s) as [ku|].
      * destruct IH as (pre & k & r & post & -> & -> & L). exists (String c pre), k, r, post.
        split; auto. split; auto. intros pre' k' r' post' E. destruct pre' as [|c' pre'].
        -- exfalso. apply (NF k' r' post'). exact E.
        -- injection E as _ E. simpl. specialize (L pre' k' r' post' E). lia.
      * intros pre k r post E. destruct pre as [|c' pre]; [apply (NF k r post); exact E|].
        injection E as _ E. apply (IH pre k r post E).
Qed.

Lemma dtype_parse_spec s :
  match dtype_parse s with
  | Ok (k, r) => exists pre post, s = (pre ++ dtype_string k r ++ post)%string /\
      forall pre' k' r' post', s = (pre' ++ dtype_string k' r' ++ post')%string -> (String.length pre <= String.length pre')%nat
  | Throw _ => forall pre k r post, s <> (pre ++ dtype_string k r ++ post)%string
  | UB _ => False
  end.
Proof.
  unfold dtype_parse. assert (S := regex_search_spec s). destruct (regex_search s) as [[ku uu]|]; auto.
  destruct S as (pre & k & r & post & E & S). injection E as -> ->. rewrite parse_unit_name. cbn [obind].
  assert ((if String.eqb (kind_name k) "datetime64" then kDatetime64 else kTimedelta64) = k) as -> by (destruct k; reflexivity).
  exists pre, post. auto.
Qed.
