(** Theorems about dates (properties C19 to C25 and C59). *)
From Verif Require Import Base BaseProofs DateModel DateSpec DateProofs DateProofs2.
Open Scope Z_scope.

(** * C19 civil dates *)
(** Day 0 is 1970-01-01, each day is followed by its calendar successor, every value
    is a date of the calendar: this determines the function on all integers. *)
Theorem C19_gregorian : 
  date_from_days 0 = mk_date 1970 1 1 /\
  (forall n, date_from_days (n + 1) = next_day (date_from_days n)) /\
  (forall n, valid_date (date_from_days n)).
Proof. split; [reflexivity|]. split; [apply date_succ|apply date_valid]. Qed.
Print Assumptions C19_gregorian.

(** It is an order isomorphism between the integers and the dates of the calendar. *)
Theorem C19_bijection :
  (forall n m, n < m <-> date_lt (date_from_days n) (date_from_days m)) /\
  (forall d, valid_date d -> exists n, date_from_days n = d /\ forall m, date_from_days m = d -> m = n).
Proof.
  split.
  - intros n m. split; [apply date_mono|]. intro H. destruct (Z.lt_trichotomy n m) as [L|[L|L]]; auto.
    + subst. exfalso. eapply date_lt_irrefl; eauto.
    + apply date_mono in L. exfalso. eapply date_lt_irrefl. eapply date_lt_trans; eauto.
  - intros d V. destruct (date_onto d V) as [n H]. exists n. split; auto. intros m Hm. apply date_inj. congruence.
Qed.
Print Assumptions C19_bijection.

(** Any other function with these three properties is the same function. *)
Theorem C19_unique : forall f : Z -> date,
  f 0 = mk_date 1970 1 1 -> (forall n, f (n + 1) = next_day (f n)) -> (forall n, valid_date (f n)) ->
  forall n, f n = date_from_days n.
Proof.
  intros f F0 FS FV.
  assert (NI : forall a b, valid_date a -> valid_date b -> next_day a = next_day b -> a = b).
  { intros a b Va Vb E. destruct (date_onto a Va) as [i <-], (date_onto b Vb) as [j <-].
    rewrite <- !date_succ in E. apply date_inj in E. f_equal. lia. }
  assert (UP : forall k : nat, f (Z.of_nat k) = date_from_days (Z.of_nat k)).
  { induction k as [|k IH]; [exact F0|]. rewrite Nat2Z.inj_succ. unfold Z.succ. rewrite FS, date_succ, IH. reflexivity. }
  assert (DN : forall k : nat, f (- Z.of_nat k) = date_from_days (- Z.of_nat k)).
  { induction k as [|k IH]; [exact F0|]. apply NI; [apply FV|apply date_valid|].
    rewrite <- FS, <- date_succ. replace (- Z.of_nat (S k) + 1) with (- Z.of_nat k) by lia. exact IH. }
  intro n. destruct (Z.le_gt_cases 0 n).
  - rewrite <- (Z2Nat.id n) by lia. apply UP.
  - replace n with (- Z.of_nat (Z.to_nat (- n))) by lia. apply DN.
Qed.
Print Assumptions C19_unique.

Example C19_ex : date_from_days (-1) = mk_date 1969 12 31 /\ date_from_days 11016 = mk_date 2000 2 29 /\
  date_from_days (-25567) = mk_date 1900 1 1.
Proof. repeat split; reflexivity. Qed.

(** The C++ types ([int] for the era and the year, [unsigned] for the rest) hold every
    intermediate value for dates within about two billion years of 1970. *)
Definition int32 (z : Z) : Prop := - 2 ^ 31 <= z < 2 ^ 31.
Definition uint32 (z : Z) : Prop := 0 <= z < 2 ^ 32.
Theorem C19_int32_range : forall n, - 784000000000 <= n <= 784000000000 ->
  let era := dfd_era n in let doe := dfd_doe n in let yoe := dfd_yoe doe in
  let doy := dfd_doy doe yoe in let mon := dfd_mon doy in
  int32 era /\ int32 (era * 400) /\ int32 (yoe + era * 400) /\ int32 (year (date_from_days n)) /\
  uint32 doe /\ uint32 (doe - Z.quot doe 1460) /\ uint32 yoe /\ uint32 (365 * yoe + Z.quot yoe 4 - Z.quot yoe 100) /\
  uint32 doy /\ uint32 (5 * doy + 2) /\ uint32 mon /\ uint32 (153 * mon + 2) /\
  uint32 (month (date_from_days n)) /\ uint32 (day (date_from_days n)).
Proof.
  intros n H. cbv zeta. assert (R := doe_range n). destruct (era_bounds (dfd_doe n) R) as (A & B & C).
  assert (E := era_floor n). unfold int32, uint32. change (2 ^ 31) with 2147483648. change (2 ^ 32) with 4294967296.
  assert (ER : - 5368000 <= dfd_era n <= 5368000) by (rewrite E; Z.div_mod_to_equations; lia).
  destruct (date_valid n) as [V1 V2]. assert (ML := month_length_pos (year (date_from_days n)) (month (date_from_days n))).
  assert (Y : year (date_from_days n) = dfd_yoe (dfd_doe n) + dfd_era n * 400 \/
              year (date_from_days n) = dfd_yoe (dfd_doe n) + dfd_era n * 400 + 1).
  { unfold date_from_days; cbv zeta; cbn [year]. destruct (_ <=? 2); lia. }
  assert (Q1 : 0 <= Z.quot (dfd_doe n) 1460 <= dfd_doe n).
  { rewrite Z.quot_div_nonneg by lia. Z.div_mod_to_equations. lia. }
  assert (Q2 : 0 <= Z.quot (dfd_yoe (dfd_doe n)) 100 <= Z.quot (dfd_yoe (dfd_doe n)) 4).
  { rewrite !Z.quot_div_nonneg by lia. Z.div_mod_to_equations. lia. }
  assert (D1 : dfd_doy (dfd_doe n) (dfd_yoe (dfd_doe n)) = dfd_doe n - (365 * dfd_yoe (dfd_doe n) + Z.quot (dfd_yoe (dfd_doe n)) 4 - Z.quot (dfd_yoe (dfd_doe n)) 100)) by reflexivity.
  repeat split; lia.
Qed.
Print Assumptions C19_int32_range.

(** A datetime64[s] can be further away: the 32-bit product era * 400 overflows. *)
Theorem C19_far_dates_refuted : exists t, int64_min <= t <= int64_max /\
  let n := fst (fst (days_since_epoch 1 t)) in ~ int32 (dfd_era n * 400).
Proof. exists (2 ^ 62). vm_compute. split; [split; discriminate|]. intros [_ H]. discriminate. Qed.
Print Assumptions C19_far_dates_refuted.
(** At millisecond resolution or finer every 64-bit timestamp is in range. *)
Theorem C19_milliseconds_in_range : forall r o t, order_of_magnitude r = Ok o -> r <> kSecond ->
  int64_min <= t <= int64_max ->
  - 784000000000 <= fst (fst (days_since_epoch o t)) <= 784000000000.
Proof.
  intros r o t H N T. rewrite days_since_epoch_spec by (eapply oom_pos; eauto). cbn [fst].
  unfold int64_min, int64_max in T. change (2 ^ 63) with 9223372036854775808 in T.
  destruct r; simpl in H; try discriminate; try congruence; injection H as <-; Z.div_mod_to_equations; lia.
Qed.
Print Assumptions C19_milliseconds_in_range.

(** * C20 leap years, days since January *)
Theorem C20_leap_year : forall y, is_leap_year y = 1 <-> leap y.
Proof. intro y. rewrite is_leap_year_eq, <- leapb_iff. destruct (leapb y); split; auto; discriminate. Qed.
Print Assumptions C20_leap_year.
Theorem C20_leap_year_bool : forall y, is_leap_year y = 0 \/ is_leap_year y = 1.
Proof. intro y. rewrite is_leap_year_eq. destruct (leapb y); auto. Qed.
Print Assumptions C20_leap_year_bool.
(** Going back that many days leads to January 1st of the same year. *)
Theorem C20_days_since_january : forall n,
  let d := date_from_days n in
  0 <= days_since_january d < 365 + is_leap_year (year d) /\
  date_from_days (n - days_since_january d) = mk_date (year d) 1 1.
Proof.
  intro n. cbv zeta. split; [|apply january_first]. assert (R := dsj_range _ (date_valid n)).
  rewrite is_leap_year_eq. unfold year_length in R. destruct (leapb (year (date_from_days n))); lia.
Qed.
Print Assumptions C20_days_since_january.
Example C20_ex : leap 2000 /\ ~ leap 1900 /\ leap 2024 /\ days_since_january (mk_date 2024 12 31) = 365.
Proof.
  rewrite <- !leapb_iff. repeat split; try reflexivity. vm_compute. discriminate.
Qed.

(** * C21 weekday *)
Theorem C21_weekday : weekday 0 = 4 (* Thursday, Sunday being 0 *) /\
  (forall n, 0 <= weekday n <= 6) /\
  (forall n, weekday (n + 1) = (weekday n + 1) mod 7).
Proof.
  split; [reflexivity|]. split; intro n; rewrite ?weekday_eq.
  - assert (B := Z.mod_pos_bound (n + 4) 7 ltac:(lia)). lia.
  - Z.div_mod_to_equations. lia.
Qed.
Print Assumptions C21_weekday.
(** The weekday before the epoch too. *)
Theorem C21_weekday_all : forall n, weekday n = (n + 4) mod 7.
Proof. apply weekday_eq. Qed.
Print Assumptions C21_weekday_all.

(** * C22 ISO calendar *)
(** ISO-8601: the ISO year is the calendar year of the week's Thursday; the week number
    counts the Thursdays of that year; Monday is 1 ... Sunday is 7. *)
Theorem C22_isocalendar : forall n,
  let th := date_from_days (thursday_of_week n) in
  isocalendar n = mk_iso (year th) (days_since_january th / 7 + 1) ((n + 3) mod 7 + 1).
Proof. apply isocalendar_spec. Qed.
Print Assumptions C22_isocalendar.
(** [thursday_of_week] is the Thursday of the Monday-to-Sunday week of the day. *)
Theorem C22_thursday : forall n, weekday (thursday_of_week n) = 4 /\
  (forall m, weekday m = 1 -> m <= n < m + 7 -> thursday_of_week n = m + 3).
Proof.
  intro n. unfold thursday_of_week. rewrite weekday_eq. split.
  - Z.div_mod_to_equations. lia.
  - intros m. rewrite weekday_eq. intros. Z.div_mod_to_equations. lia.
Qed.
Print Assumptions C22_thursday.
Theorem C22_ranges_and_injective :
  (forall n, 1 <= iso_week (isocalendar n) <= 53 /\ 1 <= iso_weekday (isocalendar n) <= 7) /\
  (forall n m, isocalendar n = isocalendar m -> n = m).
Proof.
  split.
  - intro n. rewrite isocalendar_spec. cbn [iso_week iso_weekday].
    assert (R := dsj_range _ (date_valid (thursday_of_week n))).
    assert (365 <= year_length (year (date_from_days (thursday_of_week n))) <= 366)
      by (unfold year_length; destruct (leapb _); lia).
    split; Z.div_mod_to_equations; lia.
  - intros n m E. rewrite !isocalendar_spec in E.
    remember (days_since_january (date_from_days (thursday_of_week n))) as a.
    remember (days_since_january (date_from_days (thursday_of_week m))) as b.
    assert (EY := f_equal iso_year E). assert (EW := f_equal iso_week E). assert (ED := f_equal iso_weekday E).
    cbn [iso_year iso_week iso_weekday] in *. clear E.
    assert (Ja := january_first (thursday_of_week n)). assert (Jb := january_first (thursday_of_week m)).
    rewrite <- Heqa in Ja. rewrite <- Heqb in Jb. rewrite EY in Ja. rewrite <- Jb in Ja. apply date_inj in Ja.
    unfold thursday_of_week in Ja. Z.div_mod_to_equations. lia.
Qed.
Print Assumptions C22_ranges_and_injective.
Example C22_ex : isocalendar 14610 = mk_iso 2009 53 5 (* 2010-01-01 *) /\ isocalendar 14243 = mk_iso 2009 1 2 (* 2008-12-30 *).
Proof. split; reflexivity. Qed.

(** * C23 splitting timestamps *)
Theorem C23_split : forall r o t, order_of_magnitude r = Ok o ->
  exists days seconds frac, days_since_epoch o t = (days, seconds, frac) /\
    t = seconds * o + frac /\ 0 <= frac < o /\ days * 86400 <= seconds < (days + 1) * 86400.
Proof.
  intros r o t H. apply oom_pos in H. rewrite days_since_epoch_spec by auto.
  do 3 eexists. split; [reflexivity|]. assert (M := Z.mod_pos_bound t o H).
  assert (E1 := Z.div_mod t o ltac:(lia)). assert (E2 := Z.div_mod (t / o) 86400 ltac:(lia)).
  assert (M2 := Z.mod_pos_bound (t / o) 86400 ltac:(lia)). split; [lia|]. split; lia.
Qed.
Print Assumptions C23_split.
(** hours, minutes and seconds recombine into the seconds elapsed in the day. *)
Theorem C23_time : forall days seconds, days * 86400 <= seconds < (days + 1) * 86400 ->
  let hms := time_from_seconds seconds in
  0 <= hour hms < 24 /\ 0 <= minute hms < 60 /\ 0 <= second hms < 60 /\
  days * 86400 + hour hms * 3600 + minute hms * 60 + second hms = seconds.
Proof.
  intros d s H. destruct (time_spec s) as (A & B & C & D). cbv zeta. repeat split; try lia.
  assert (s mod 86400 = s - d * 86400) by (Z.div_mod_to_equations; lia). lia.
Qed.
Print Assumptions C23_time.
(** The public functions: date, time and microseconds describe the instant; finer
    fractions are truncated, never rounded up. *)
Theorem C23_datetime : forall r o t d hms us, order_of_magnitude r = Ok o ->
  api_datetime r t = Ok (d, hms, us) ->
  api_date r t = Ok d /\ api_time r t = Ok hms /\ 0 <= us < 1000000 /\
  exists n, date_from_days n = d /\
    let s := n * 86400 + hour hms * 3600 + minute hms * 60 + second hms in
    (s * 1000000 + us) * o <= t * 1000000 < (s * 1000000 + us + 1) * o.
Proof.
  intros r o t d hms us H. unfold api_datetime, api_date, api_time. rewrite H. cbn [obind].
  destruct (C23_split r o t H) as (days & seconds & frac & E & T & F & D). rewrite E.
  intros [= <- <- <-]. split; auto. split; auto.
  destruct (C23_time days seconds D) as (A & B & C & S).
  assert (US : 0 <= frac_cast o frac 1000000 < 1000000 /\ frac_cast o frac 1000000 * o <= frac * 1000000 < (frac_cast o frac 1000000 + 1) * o).
  { unfold frac_cast. clear E T D A B C S. destruct r; simpl in H; try discriminate; injection H as <-; cbn -[Z.mul Z.quot];
    match goal with |- context[Z.quot (Zpos ?a) (Zpos ?b)] => let v := eval vm_compute in (Z.quot (Zpos a) (Zpos b)) in change (Z.quot (Zpos a) (Zpos b)) with v | _ => idtac end;
    try lia; rewrite Z.quot_div_nonneg by lia; Z.div_mod_to_equations; lia. }
  split; [tauto|]. exists days. split; auto. cbv zeta. rewrite S. nia.
Qed.
Print Assumptions C23_datetime.
(** Resolutions coarser than the second are refused. *)
Theorem C23_refused : forall r t, (exists w, order_of_magnitude r = Throw w) <->
  In r [kYear; kMonth; kWeek; kDay; kHour; kMinute] /\ exists w, api_date r t = Throw w.
Proof.
  intros r t. split.
  - intros [w H]. unfold api_date. rewrite H. cbn [obind]. split; [|eauto]. destruct r; simpl in *; try discriminate; tauto.
  - intros [H _]. simpl in H. decompose [or] H; subst; try contradiction; simpl; eauto.
Qed.
Print Assumptions C23_refused.
Example C23_ex : api_datetime kNanosecond (-1) = Ok (mk_date 1969 12 31, mk_time 23 59 59, 999999).
Proof. reflexivity. Qed.
(** FractionalSeconds::resolution gives back the resolution. *)
Theorem C23_resolution : forall r o, order_of_magnitude r = Ok o -> frac_resolution o = r.
Proof. intros r o H. destruct r; simpl in H; try discriminate; injection H as <-; reflexivity. Qed.
Print Assumptions C23_resolution.

(** * C24 timedelta_since_january *)
(** For second to nanosecond resolutions: exactly the time since January 1st. *)
Theorem C24_since_january : forall r o t, order_of_magnitude r = Ok o -> o <= 1000000000 ->
  exists v jan, api_since_january r t = Ok v /\ v = t - jan * 86400 * o /\ 0 <= v /\
    api_date r t = Ok (date_from_days (t / o / 86400)) /\
    date_from_days jan = mk_date (year (date_from_days (t / o / 86400))) 1 1.
Proof.
  intros r o t H Ho. assert (P := oom_pos r o H). assert (S := since_january_math r o t H).
  unfold api_since_january, api_date. rewrite H. cbn [obind].
  destruct (days_since_epoch o t) as [[days seconds] frac] eqn:E. cbv zeta in S.
  destruct S as (S1 & S2 & S3 & S4). assert (R := dsj_range _ (date_valid days)).
  set (n := days_since_january (date_from_days days)) in *.
  assert (NB : n <= 365) by (unfold year_length in R; destruct (leapb _); lia).
  set (w := n * 86400 + hour (time_from_seconds seconds) * 3600 + minute (time_from_seconds seconds) * 60 + second (time_from_seconds seconds)) in *.
  assert (W : 0 <= w < 31622400) by lia.
  assert (W2 : 0 <= w * o /\ w * o <= 31622400 * 1000000000) by nia.
  exists (w * o + frac), (days - n).
  unfold check64 at 1. destruct (Z.leb_spec int64_min (w * o)) as [|X]; [|unfold int64_min in X; lia].
  destruct (Z.leb_spec (w * o) int64_max) as [|X]; [|unfold int64_max in X; lia]. cbn [andb obind].
  unfold check64. destruct (Z.leb_spec int64_min (w * o + frac)) as [|X]; [|unfold int64_min in X; lia].
  destruct (Z.leb_spec (w * o + frac) int64_max) as [|X]; [|unfold int64_max in X; lia]. cbn [andb].
  split; auto. split; [lia|]. split; [lia|]. rewrite <- S3. split; auto. apply january_first.
Qed.
Print Assumptions C24_since_january.

(** For picoseconds and finer: the 64-bit product overflows exactly for the instants
    before 1970. *)
Theorem C24_subnanosecond_overflow_refuted : forall r o t, order_of_magnitude r = Ok o -> 1000000000000 <= o ->
  int64_min <= t <= int64_max ->
  (0 <= t -> api_since_january r t = Ok t) /\
  (t < 0 -> api_since_january r t = UB "signed overflow").
Proof.
  intros r o t H Ho HT. assert (P := oom_pos r o H). assert (S := since_january_math r o t H).
  unfold api_since_january. rewrite H. cbn [obind].
  destruct (days_since_epoch o t) as [[days seconds] frac] eqn:E. cbv zeta in S.
  destruct S as (S1 & S2 & S3 & S4). set (n := days_since_january (date_from_days days)) in *.
  set (w := n * 86400 + hour (time_from_seconds seconds) * 3600 + minute (time_from_seconds seconds) * 60 + second (time_from_seconds seconds)) in *.
  assert (T1 : int64_max < 107 * 86400 * o) by (unfold int64_max; change (2 ^ 63) with 9223372036854775808; lia).
  assert (T0 : - (107 * 86400 * o) < int64_min) by (unfold int64_min; change (2 ^ 63) with 9223372036854775808; lia).
  assert (DM := Z.div_mod t o ltac:(lia)). assert (DB := Z.mod_pos_bound t o P).
  assert (SR : - (107 * 86400) <= t / o < 107 * 86400) by nia.
  split; intro T.
  - assert (SN : 0 <= t / o) by nia. assert (DR : 0 <= days < 107) by (rewrite S3; Z.div_mod_to_equations; lia).
    assert (N : n = days).
    { destruct (year_same 0 days) as [_ B]. { rewrite date_zero. change (days_since_january (mk_date 1970 1 1)) with 0. change (year_length (year (mk_date 1970 1 1))) with 365. lia. }
      rewrite date_zero in B. change (days_since_january (mk_date 1970 1 1)) with 0 in B. rewrite !Z.add_0_l in B. exact B. }
    assert (V : w * o + frac = t) by (rewrite S1, N; ring).
    assert (w * o <= t) by lia. assert (0 <= w * o) by nia.
    unfold check64 at 1. destruct (Z.leb_spec int64_min (w * o)) as [|X]; [|unfold int64_min in X; lia].
    destruct (Z.leb_spec (w * o) int64_max) as [|X]; [|lia]. cbn [andb obind]. rewrite V.
    unfold check64. destruct (Z.leb_spec int64_min t) as [|X]; [|lia].
    destruct (Z.leb_spec t int64_max) as [|X]; [|lia]. reflexivity.
  - assert (SN : t / o < 0) by nia. assert (DR : -107 <= days <= -1) by (rewrite S3; Z.div_mod_to_equations; lia).
    assert (N : n = days + 365).
    { destruct (year_same (-365) (days + 365)) as [_ B].
      { change (date_from_days (-365)) with (mk_date 1969 1 1). change (days_since_january (mk_date 1969 1 1)) with 0. change (year_length (year (mk_date 1969 1 1))) with 365. lia. }
      change (date_from_days (-365)) with (mk_date 1969 1 1) in B.
      change (days_since_january (mk_date 1969 1 1)) with 0 in B.
      replace (-365 + (days + 365)) with days in B by ring. rewrite Z.add_0_l in B. exact B. }
    assert (w * o > int64_max).
    { assert (258 * 86400 <= w) by lia. assert (107 * 86400 * o <= w * o) by nia. lia. }
    unfold check64 at 1. destruct (Z.leb_spec (w * o) int64_max) as [|X]; [lia|].
    rewrite andb_false_r. reflexivity.
Qed.
Print Assumptions C24_subnanosecond_overflow_refuted.
Example C24_ex : api_since_january kNanosecond (-1) = Ok 31535999999999999 /\ 
  api_since_january kPicosecond (-1) = UB "signed overflow".
Proof. split; vm_compute; reflexivity. Qed.

(** * C25 dtype text *)
Theorem C25_round_trip : forall k r, dtype_parse (dtype_string k r) = Ok (k, r).
Proof. destruct k, r; vm_compute; reflexivity. Qed.
Print Assumptions C25_round_trip.
(** The constructor refuses exactly the texts holding no dtype, and otherwise reads
    the leftmost one. *)
Theorem C25_parse : forall s,
  match dtype_parse s with
  | Ok (k, r) => exists pre post, s = (pre ++ dtype_string k r ++ post)%string /\
      forall pre' k' r' post', s = (pre' ++ dtype_string k' r' ++ post')%string -> (String.length pre <= String.length pre')%nat
  | Throw _ => forall pre k r post, s <> (pre ++ dtype_string k r ++ post)%string
  | UB _ => False
  end.
Proof. apply dtype_parse_spec. Qed.
Print Assumptions C25_parse.
(** Unknown text around a dtype is not refused. *)
Theorem C25_substring_refuted : dtype_parse "no datetime64[s] here" = Ok (kDatetime64, kSecond).
Proof. vm_compute. reflexivity. Qed.
Print Assumptions C25_substring_refuted.

(** * C59 years, months, weeks, hours, minutes since 1970 *)
Theorem C59_months : forall m, let d := date_from_months m in
  1 <= month d <= 12 /\ day d = 1 /\ (year d - 1970) * 12 + (month d - 1) = m.
Proof.
  intro m. cbv zeta. unfold date_from_months, kEpoch.
  assert (Q := Z.quot_rem' m 12). assert (B := Z.rem_bound_abs m 12 ltac:(lia)).
  assert (SG : 0 <= m -> 0 <= Z.rem m 12) by (intro; apply Z.rem_nonneg; lia).
  assert (SN : m < 0 -> Z.rem m 12 <= 0) by (intro; apply Z.rem_nonpos; lia).
  destruct (Z.eqb_spec (Z.rem m 12) 0), (Z.ltb_spec m 0); cbn [negb andb year month day]; lia.
Qed.
Print Assumptions C59_months.
Theorem C59_hours : forall h, let (d, t) := datetime_from_hours h in
  exists n, date_from_days n = d /\ minute t = 0 /\ second t = 0 /\ 0 <= hour t < 24 /\ n * 24 + hour t = h.
Proof.
  intro h. unfold datetime_from_hours. cbv zeta.
  assert (Q := Z.quot_rem' h 24). assert (B := Z.rem_bound_abs h 24 ltac:(lia)).
  assert (SG : 0 <= h -> 0 <= Z.rem h 24) by (intro; apply Z.rem_nonneg; lia).
  assert (SN : h < 0 -> Z.rem h 24 <= 0) by (intro; apply Z.rem_nonpos; lia).
  destruct (Z.eqb_spec (Z.rem h 24) 0), (Z.ltb_spec h 0); cbn [negb andb];
  eexists; (split; [reflexivity|]); cbn [hour minute second]; lia.
Qed.
Print Assumptions C59_hours.
Theorem C59_minutes : forall m, let (d, t) := datetime_from_minutes m in
  exists n, date_from_days n = d /\ second t = 0 /\ 0 <= hour t < 24 /\ 0 <= minute t < 60 /\
    (n * 24 + hour t) * 60 + minute t = m.
Proof.
  intro m. unfold datetime_from_minutes, kMinutesInDay, kSecondsInMinute. cbv zeta.
  assert (Q := Z.quot_rem' m 1440). assert (B := Z.rem_bound_abs m 1440 ltac:(lia)).
  assert (SG : 0 <= m -> 0 <= Z.rem m 1440) by (intro; apply Z.rem_nonneg; lia).
  assert (SN : m < 0 -> Z.rem m 1440 <= 0) by (intro; apply Z.rem_nonpos; lia).
  destruct (Z.eqb_spec (Z.rem m 1440) 0), (Z.ltb_spec m 0); cbn [negb andb];
  eexists; (split; [reflexivity|]);
  match goal with |- context[time_from_seconds ?s] => destruct (time_spec s) as (T1 & T2 & T3 & T4);
    rewrite (Z.mod_small s) in T4 by lia end; lia.
Qed.
Print Assumptions C59_minutes.
Theorem C59_weeks_years : forall w y,
  (exists n, date_from_weeks w = date_from_days n /\ n = 7 * w) /\
  (exists n, date_from_years y = date_from_days n /\ days_since_january (date_from_days n) = 0 /\ year (date_from_days n) = 1970 + y).
Proof.
  intros. split.
  - exists (7 * w). split; auto. unfold date_from_weeks. f_equal. ring.
  - destruct (year_first_exists (1970 + y)) as [n H]. exists n. rewrite H. split; [reflexivity|]. split; [reflexivity|reflexivity].
Qed.
Print Assumptions C59_weeks_years.
Example C59_ex : date_from_months (-1) = mk_date 1969 12 1 /\ datetime_from_hours (-1) = (mk_date 1969 12 31, mk_time 23 0 0).
Proof. split; reflexivity. Qed.
