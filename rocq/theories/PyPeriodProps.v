(** C126 Periods of dates. *)
From Verif Require Import Base DateModel DateSpec PeriodModel PeriodSpec PeriodProofs PyPeriodModel PyPeriodSpec PyPeriodProofs.
Open Scope Z_scope.
Ltac Zify.zify_post_hook ::= idtac.

(** The vocabulary is sound: each span of a unit begins at one instant, and the spans follow one another
    without gap: every instant is in exactly one span of each unit. *)
Theorem C126_units : forall r,
  (forall x, exists t, begins r x t /\ forall u, begins r x u -> u = t) /\
  (forall t, exists x, in_span r x t /\ forall y, in_span r y t -> y = x).
Proof.
  intro r. split.
  - intro x. exists (instant r x). rewrite begins_iff. split; auto. intros u H. apply begins_iff in H. exact H.
  - intro t. exists (count r t). split; [apply count_eq; reflexivity|]. intros y H. apply count_eq in H. auto.
Qed.
Print Assumptions C126_units.

(** A datetime64 converted to another unit: the span of that unit which holds the instant. *)
Theorem C126_cast : forall r d t, at_instant d t -> in_span r (cast r d) t.
Proof. intros r d t H. rewrite (cast_at r d t H). apply count_eq. reflexivity. Qed.
Print Assumptions C126_cast.

(** Period(begin, end, within): from the first date to the second one, which is excluded
    ([within=False]), or whose span of the finer unit is included. *)
Theorem C126_constructor : forall begin last within tb te t,
  at_instant begin tb -> at_instant last te ->
  let p := new_period begin last within in
  (pp_res p = d_unit begin \/ pp_res p = d_unit last) /\
  (divides (d_unit begin) (pp_res p) -> divides (d_unit last) (pp_res p) ->
   at_instant (pp_begin p) tb /\
   (within = true -> at_instant (pp_last p) te /\ (lasts p t <-> tb <= t /\ (t < te \/ same_span (pp_res p) te t))) /\
   (within = false -> at_instant (pp_end p) te /\ (lasts p t <-> tb <= t < te))).
Proof.
  intros b e w tb te t Hb He p. apply at_instant_iff in Hb, He.
  assert (R : pp_res p = min_time64_unit (d_unit b) (d_unit e)) by reflexivity.
  split; [rewrite R; unfold min_time64_unit; destruct (_ <? _); auto|].
  intros D1 D2. set (r := pp_res p) in *.
  assert (B : p_begin (pp_core p) = cast r b).
  { unfold p, new_period. cbn [pp_core]. rewrite ctor_within. cbn [p_begin]. rewrite R. reflexivity. }
  assert (L : p_last (pp_core p) = cast r e - (if w then 0 else 1)).
  { unfold p, new_period. cbn [pp_core]. rewrite ctor_within. cbn [p_last]. rewrite R. destruct w; cbn [negb]; lia. }
  assert (EB : instant r (cast r b) = tb) by (subst tb; apply divides_exact; auto).
  assert (EE : instant r (cast r e) = te) by (subst te; apply divides_exact; auto).
  split; [apply at_instant_iff; unfold pp_begin; cbn [d_unit d_count]; fold r; congruence|].
  assert (G := count_ge r (cast r b) t). rewrite EB in G.
  split; intros ->.
  - rewrite Z.sub_0_r in L. split; [apply at_instant_iff; unfold pp_last; cbn [d_unit d_count]; fold r; congruence|].
    rewrite lasts_iff. fold r. unfold covers. rewrite B, L, same_span_iff.
    assert (G2 := count_lt r (cast r e) t). rewrite EE in G2.
    assert (X : count r te = cast r e) by (rewrite <- EE; apply count_instant). lia.
  - split; [apply at_instant_iff; unfold pp_end, p_end; cbn [d_unit d_count]; fold r; rewrite L; replace (cast r e - 1 + 1) with (cast r e) by lia; congruence|].
    rewrite lasts_iff. fold r. unfold covers. rewrite B, L.
    assert (G2 := count_lt r (cast r e) t). rewrite EE in G2. lia.
Qed.
Print Assumptions C126_constructor.
(** 2020-01-31 (day 18292) to 2020-02-02T12 (hour 439044). *)
Example C126_constructor_ex :
  let p := new_period (Date64 kDay 18292) (Date64 kHour 439044) false in
  pp_res p = kHour /\ pp_core p = mk_period 439008 439043 /\ divides kDay kHour /\ divides kHour kHour.
Proof.
  split; [reflexivity|]. split; [reflexivity|]. split; split; try (intros [? _]; discriminate); cbn; lia.
Qed.
(** The units for which it holds: the finer one is chosen, and only a week mixed with months or years
    divides badly. *)
Theorem C126_constructor_units : forall begin last within, let p := new_period begin last within in
  (divides (d_unit begin) (pp_res p) /\ divides (d_unit last) (pp_res p)) <->
  ~ (d_unit begin = kWeek /\ (d_unit last = kMonth \/ d_unit last = kYear)) /\
  ~ (d_unit last = kWeek /\ (d_unit begin = kMonth \/ d_unit begin = kYear)).
Proof.
  intros [u x] [v y] w p. unfold p, new_period. cbn [pp_res d_unit]. unfold divides, min_time64_unit.
  destruct u, v; cbn; split; intro H; (split; [|]); try (split; [lia|]); try lia;
    try (intros [E1 [E2|E2]]; discriminate); try (intros [E1 _]; discriminate);
    try (exfalso; destruct H as [H1 H2]; (apply H1 + apply H2 + (destruct H1 as [_ H1]; apply H1) + (destruct H2 as [_ H2]; apply H2)); auto; fail).
Qed.
Print Assumptions C126_constructor_units.
(** Refuted: a week is taken as finer than a month, although the months do not begin with a week:
    Period(datetime64('2020-02'), datetime64('2020-03-05', 'W')) begins on 2020-01-30. *)
Theorem C126_weeks_refuted : exists begin last t, at_instant begin t /\
  ~ at_instant (pp_begin (new_period begin last true)) t /\ date_from_days (t / (86400 * 10 ^ 18)) = mk_date 2020 2 1 /\
  lasts (new_period begin last true) (t - 2 * 86400 * 10 ^ 18).
Proof.
  exists (Date64 kMonth 601), (Date64 kWeek 2618), (18293 * 86400 * 10 ^ 18).
  split; [apply at_instant_iff; vm_compute; reflexivity|].
  split; [intro H; apply at_instant_iff in H; vm_compute in H; discriminate|].
  split; [vm_compute; reflexivity|].
  apply lasts_iff. unfold covers. vm_compute. split; discriminate.
Qed.
Print Assumptions C126_weeks_refuted.

(** A copied or unpickled period is the same. *)
Theorem C126_copy : forall p, pp_copy p = p.
Proof. intros [r c]. unfold pp_copy, pp_begin, pp_last. cbn [pp_res pp_core]. rewrite new_same, period_eta. reflexivity. Qed.
Print Assumptions C126_copy.

(** The duration is the number of spans, and [end] the instant of the end. *)
Theorem C126_duration : forall p, holds p ->
  e_unit (pp_duration p) = pp_res p /\ e_count (pp_duration p) = d_count (pp_end p) - d_count (pp_begin p) /\
  pp_is_null p = false /\
  exists a b, at_instant (pp_begin p) a /\ at_instant (pp_end p) b /\ forall t, lasts p t <-> a <= t < b.
Proof.
  intros p H. split; [reflexivity|]. split; [reflexivity|].
  split; [apply is_null_false; apply holds_iff; exact H|].
  exists (instant (pp_res p) (p_begin (pp_core p))), (instant (pp_res p) (p_end (pp_core p))). rewrite !at_instant_iff.
  split; [reflexivity|]. split; [reflexivity|]. intro t. rewrite lasts_iff. unfold covers, p_end.
  assert (G := count_ge (pp_res p) (p_begin (pp_core p)) t). assert (L := count_lt (pp_res p) (p_last (pp_core p) + 1) t). lia.
Qed.
Print Assumptions C126_duration.

(** contains(date), is_before, is_after: for dates in every unit. *)
Theorem C126_dates : forall p d t, at_instant d t ->
  (pp_contains p d = true <-> lasts p t) /\
  (holds p -> (pp_is_before p d = true <-> forall u, lasts p u -> u < t)) /\
  (holds p -> (pp_is_after p d = true <-> forall u, lasts p u -> t < u)) /\
  (~ holds p -> pp_is_before p d = false /\ pp_is_after p d = false).
Proof.
  intros p d t H. set (r := pp_res p). set (c := pp_core p).
  assert (C := cast_at r d t H). unfold pp_contains, pp_is_before, pp_is_after. fold r c. rewrite C.
  split; [rewrite contains_iff, lasts_iff; reflexivity|]. split; [|split].
  - intro N. apply holds_iff in N. fold c in N. rewrite is_before_iff by auto. split.
    + intros B u U. apply lasts_iff in U. fold r c in U. specialize (B _ U). apply count_lt in B. assert (Q := count_spec r t). lia.
    + intros B u U. assert (X : lasts p (instant r (u + 1) - 1)).
      { apply lasts_iff. fold r c. replace (count r (instant r (u + 1) - 1)) with u; auto.
        assert (S1 := instant_succ r u). assert (L := count_lt r (u + 1) (instant r (u + 1) - 1)).
        assert (G := count_ge r u (instant r (u + 1) - 1)). lia. }
      specialize (B _ X). assert (G := count_ge r (u + 1) t). lia.
  - intro N. apply holds_iff in N. fold c in N. rewrite is_after_iff by auto. split.
    + intros B u U. apply lasts_iff in U. fold r c in U. specialize (B _ U).
      assert (L := count_lt r (count r u) t). assert (Q := count_spec r u). lia.
    + intros B u U. assert (X : lasts p (instant r u)) by (apply lasts_iff; fold r c; rewrite count_instant; auto).
      specialize (B _ X). apply count_lt. exact B.
  - intro N. assert (E : p_is_null c = true) by (apply is_null_iff; intro E; apply N; apply holds_iff; exact E).
    unfold p_is_before, p_is_after. rewrite E. auto.
Qed.
Print Assumptions C126_dates.
(** 2020-02-29 (day 18321) is in February 2020 (month 601), 2020-03-01 is after it. *)
Example C126_dates_ex : let p := new_period (Date64 kMonth 601) (Date64 kMonth 601) true in
  pp_contains p (Date64 kDay 18321) = true /\ pp_contains p (Date64 kDay 18322) = false /\ pp_is_before p (Date64 kDay 18322) = true /\
  at_instant (Date64 kDay 18321) (18321 * 86400 * 10 ^ 18) /\ holds p.
Proof.
  cbv zeta. split; [vm_compute; reflexivity|]. split; [vm_compute; reflexivity|]. split; [vm_compute; reflexivity|].
  split; [reflexivity|]. apply holds_iff. exists 601. unfold covers. vm_compute. split; discriminate.
Qed.

(** contains, intersects, intersection and merge of periods, the argument being in the same unit or in one
    that divides it; the results, in the unit of the first period, hold the spans touched by the argument. *)
Theorem C126_periods : forall p q, holds p -> holds q -> divides (pp_res p) (pp_res q) ->
  (pp_contains_period p q = true <-> forall t, lasts q t -> lasts p t) /\
  (pp_intersects p q = true <-> exists t, lasts p t /\ lasts q t) /\
  (forall t, lasts (pp_intersection p q) t <-> lasts p t /\ exists u, same_span (pp_res p) t u /\ lasts q u) /\
  ((exists t, lasts p t /\ lasts q t) -> forall t, lasts (pp_merge p q) t <-> lasts p t \/ exists u, same_span (pp_res p) t u /\ lasts q u) /\
  (~ (exists t, lasts p t /\ lasts q t) -> ~ holds (pp_merge p q)).
Proof.
  intros p q Np Nq D. apply holds_iff in Np, Nq. set (r := pp_res p) in *.
  assert (N' := convert_nonempty p q D Nq).
  assert (CC : forall x, covers (pp_core (convert p q)) x <-> exists t, count r t = x /\ lasts q t) by (intro x; apply convert_covers; auto).
  assert (CQ : forall t, (exists u, same_span r t u /\ lasts q u) <-> covers (pp_core (convert p q)) (count r t)).
  { intro t. rewrite CC. split; intros (u & A & B); exists u; (split; [|exact B]); [apply same_span_iff in A|apply same_span_iff]; congruence. }
  assert (CI : (exists u, covers (pp_core p) u /\ covers (pp_core (convert p q)) u) <-> exists t, lasts p t /\ lasts q t).
  { split.
    - intros (u & A & B). apply CC in B. destruct B as (t & <- & B). exists t. split; auto. apply lasts_iff. exact A.
    - intros (t & A & B). exists (count r t). split; [apply lasts_iff in A; exact A|]. apply CC. eauto. }
  split; [|split; [|split; [|split]]].
  - unfold pp_contains_period. rewrite contains_period_iff by auto. split.
    + intros H t T. apply lasts_iff. apply H. apply CC. eauto.
    + intros H u U. apply CC in U. destruct U as (t & <- & T). apply lasts_iff. apply H. exact T.
  - unfold pp_intersects. rewrite intersects_iff by auto. exact CI.
  - intro t. unfold pp_intersection. rewrite in_unit_eq, lasts_iff. cbn [pp_res pp_core]. fold r. rewrite intersection_iff, CQ, lasts_iff. reflexivity.
  - intros E t. unfold pp_merge. rewrite in_unit_eq, lasts_iff. cbn [pp_res pp_core]. fold r.
    rewrite merge_iff by (auto; apply CI; exact E). rewrite CQ, lasts_iff. reflexivity.
  - intros E H. unfold pp_merge in H. rewrite in_unit_eq in H. apply holds_iff in H. cbn [pp_core] in H.
    revert H. apply merge_null; auto. rewrite CI. exact E.
Qed.
Print Assumptions C126_periods.
(** The same unit: exact set operations, and adjacency. *)
Theorem C126_same_unit : forall p q, holds p -> holds q -> pp_res p = pp_res q ->
  (forall t, lasts (pp_intersection p q) t <-> lasts p t /\ lasts q t) /\
  ((exists t, lasts p t /\ lasts q t) -> forall t, lasts (pp_merge p q) t <-> lasts p t \/ lasts q t) /\
  (pp_is_adjacent p q = true <-> (forall t, ~ (lasts p t /\ lasts q t)) /\
     forall s t u, (lasts p s \/ lasts q s) -> (lasts p u \/ lasts q u) -> s <= t <= u -> lasts p t \/ lasts q t) /\
  (pp_eq p q = true <-> forall t, lasts p t <-> lasts q t) /\
  (pp_lt p q = true <-> exists s, lasts p s /\ forall t, lasts q t -> s < t).
Proof.
  intros p q Np Nq E.
  assert (D : divides (pp_res p) (pp_res q)).
  { rewrite E. split; [lia|]. intros [-> [X|X]]; discriminate. }
  assert (SS : forall t, (exists u, same_span (pp_res p) t u /\ lasts q u) <-> lasts q t).
  { intro t. split.
    - intros (u & A & B). apply same_span_iff in A. apply lasts_iff in B. apply lasts_iff. rewrite <- E, A, E. exact B.
    - intro T. exists t. split; auto. apply same_span_iff. reflexivity. }
  destruct (C126_periods p q Np Nq D) as (_ & _ & I & M & _).
  split; [intro t; rewrite I, SS; reflexivity|].
  split; [intros X t; rewrite (M X), SS; reflexivity|].
  apply holds_iff in Np, Nq. set (r := pp_res p) in *.
  assert (CV : convert p q = q) by (unfold convert; fold r; rewrite E, same_unit_refl; reflexivity).
  assert (LP : forall t, lasts p t <-> covers (pp_core p) (count r t)) by (intro; apply lasts_iff).
  assert (LQ : forall t, lasts q t <-> covers (pp_core q) (count r t)) by (intro; rewrite E; apply lasts_iff).
  assert (Mp := proj1 (nonempty_iff _) Np). assert (Mq := proj1 (nonempty_iff _) Nq).
  assert (MONO : forall a b, a <= b -> count r a <= count r b).
  { intros a b H. apply count_ge. assert (C := count_spec r a). lia. }
  split; [|split].
  - unfold pp_is_adjacent. rewrite CV, adjacent_iff by auto. split; intros [A B].
    + split; [intro t; rewrite LP, LQ; apply A|]. intros s t u S1 U1 T1. rewrite LP, LQ in *. apply B.
      assert (M1 := MONO s t ltac:(lia)). assert (M2 := MONO t u ltac:(lia)). unfold covers in S1, U1. lia.
    + split.
      * intros x X. apply (A (instant r x)). rewrite LP, LQ, count_instant. exact X.
      * intros x X. specialize (B (instant r (Z.min (p_begin (pp_core p)) (p_begin (pp_core q)))) (instant r x) (instant r (Z.max (p_last (pp_core p)) (p_last (pp_core q))))).
        rewrite !LP, !LQ, !count_instant in B. apply B; [unfold covers; lia|unfold covers; lia|].
        split; apply instant_le; lia.
  - unfold pp_eq. fold r. rewrite E, same_unit_refl. cbn [negb]. split.
    + intros H t. rewrite LP, LQ. unfold p_eqb in H. apply andb_true_iff in H. destruct H as [H1 H2]. apply Z.eqb_eq in H1, H2.
      unfold covers. rewrite H1, H2. reflexivity.
    + intros H. unfold p_eqb. apply andb_true_iff. rewrite !Z.eqb_eq.
      assert (X : forall x, covers (pp_core p) x <-> covers (pp_core q) x).
      { intro x. specialize (H (instant r x)). rewrite LP, LQ, count_instant in H. exact H. }
      unfold covers in X. assert (X1 := X (p_begin (pp_core p))). assert (X2 := X (p_last (pp_core p))).
      assert (X3 := X (p_begin (pp_core q))). assert (X4 := X (p_last (pp_core q))). lia.
  - unfold pp_lt. fold r. rewrite E, same_unit_refl. cbn [negb]. rewrite Z.ltb_lt. split.
    + intro H. exists (instant r (p_begin (pp_core p))). split; [rewrite LP, count_instant; unfold covers; lia|].
      intros t T. rewrite LQ in T. unfold covers in T.
      assert (G := count_ge r (p_begin (pp_core q)) t).
      assert (LL := proj1 (instant_lt r _ _) H). revert G. intro G. lia.
    + intros (s & S1 & S2). rewrite LP in S1. unfold covers in S1. specialize (S2 (instant r (p_begin (pp_core q)))).
      rewrite LQ, count_instant in S2. assert (X : s < instant r (p_begin (pp_core q))) by (apply S2; unfold covers; lia).
      apply count_lt in X. lia.
Qed.
Print Assumptions C126_same_unit.
(** Equality is that of the unit and of the two dates; the order needs the same unit. *)
Theorem C126_equal : forall p q,
  (pp_eq p q = true <-> pp_res p = pp_res q /\ pp_begin p = pp_begin q /\ pp_last p = pp_last q) /\
  (pp_lt p q = true -> pp_res p = pp_res q).
Proof.
  intros p q. unfold pp_eq, pp_lt. destruct (same_unit (pp_res p) (pp_res q)) eqn:E; cbn [negb].
  - apply same_unit_iff in E. split; auto. unfold p_eqb, pp_begin, pp_last. rewrite andb_true_iff, !Z.eqb_eq, E. split.
    + intros [-> ->]. auto.
    + intros (_ & A & B). injection A as A. injection B as B. auto.
  - assert (N : pp_res p <> pp_res q) by (intro H; apply same_unit_iff in H; congruence).
    split; [|discriminate]. split; [discriminate|]. intros (H & _). contradiction.
Qed.
Print Assumptions C126_equal.

(** as_resolution to a longer unit: the spans touched; to a shorter one, the beginning is kept and the last
    date is the beginning of the last span; coming back gives the period. *)
Theorem C126_as_resolution : forall p r t, holds p ->
  pp_res (as_resolution p r) = r /\
  (divides r (pp_res p) -> (lasts (as_resolution p r) t <-> exists u, same_span r t u /\ lasts p u)) /\
  (divides (pp_res p) r ->
     (forall tb, at_instant (pp_begin p) tb -> at_instant (pp_begin (as_resolution p r)) tb) /\
     (forall tl, at_instant (pp_last p) tl -> at_instant (pp_last (as_resolution p r)) tl) /\
     as_resolution (as_resolution p r) (pp_res p) = p).
Proof.
  intros p r t N. apply holds_iff in N. rewrite as_resolution_eq. split; [reflexivity|]. split.
  - intro D. rewrite lasts_iff. cbn [pp_res pp_core]. rewrite as_resolution_covers by auto. split.
    + intros (u & A & B). exists u. split; auto. apply same_span_iff. congruence.
    + intros (u & A & B). exists u. split; auto. apply same_span_iff in A. congruence.
  - intro D.
    assert (X : forall x, instant r (count r (instant (pp_res p) x)) = instant (pp_res p) x) by (intro; apply divides_exact; auto).
    split; [|split].
    + intros tb H. apply at_instant_iff in H. apply at_instant_iff. subst tb. symmetry. apply X.
    + intros tl H. apply at_instant_iff in H. apply at_instant_iff. subst tl. symmetry. apply X.
    + rewrite as_resolution_eq. unfold pp_begin, pp_last. cbn [pp_res pp_core p_begin p_last]. unfold cast. cbn [d_unit d_count].
      rewrite !X, !count_instant, period_eta. destruct p; reflexivity.
Qed.
Print Assumptions C126_as_resolution.
(** 2020-01-31T22 to 2020-02-01T03 touches two days. *)
Example C126_as_resolution_ex :
  as_resolution (PyPeriod kHour (mk_period 439030 439035)) kDay = PyPeriod kDay (mk_period 18292 18293) /\
  divides kDay kHour /\ holds (PyPeriod kHour (mk_period 439030 439035)).
Proof.
  split; [vm_compute; reflexivity|]. split; [split; [cbn; lia|intros [? _]; discriminate]|].
  apply holds_iff. exists 439030. split; cbn; lia.
Qed.

(** Refuted: a day written in hours is one hour long. *)
Theorem C126_duration_refuted : exists p r, holds p /\ divides (pp_res p) r /\
  delta_cast kHour (pp_duration p) = 24 /\ pp_duration (as_resolution p r) = Delta64 kHour 1.
Proof.
  exists (PyPeriod kDay (mk_period 0 0)), kHour. split; [apply holds_iff; exists 0; split; cbn; lia|].
  split; [split; [cbn; lia|intros [? _]; discriminate]|]. split; vm_compute; reflexivity.
Qed.
Print Assumptions C126_duration_refuted.
(** Refuted: with an argument in a longer unit, the end of its last span is lost: a period of hours says it
    contains a day which ends after it, and says it does not intersect a day it meets, whereas the day
    says it intersects the hours. *)
Theorem C126_coarse_refuted :
  (exists p q t, holds p /\ holds q /\ pp_contains_period p q = true /\ lasts q t /\ ~ lasts p t) /\
  (exists p q t, holds p /\ holds q /\ lasts p t /\ lasts q t /\ pp_intersects p q = false /\ pp_intersects q p = true).
Proof.
  split.
  - exists (PyPeriod kHour (mk_period 0 10)), (PyPeriod kDay (mk_period 0 0)), (20 * 3600 * 10 ^ 18).
    split; [apply holds_iff; exists 0; split; cbn; lia|]. split; [apply holds_iff; exists 0; split; cbn; lia|].
    split; [vm_compute; reflexivity|]. split; [apply lasts_iff; vm_compute; split; discriminate|].
    intro H. apply lasts_iff in H. vm_compute in H. destruct H as [_ H]. apply H. reflexivity.
  - exists (PyPeriod kHour (mk_period 10 12)), (PyPeriod kDay (mk_period 0 0)), (11 * 3600 * 10 ^ 18).
    split; [apply holds_iff; exists 10; split; cbn; lia|]. split; [apply holds_iff; exists 0; split; cbn; lia|].
    split; [apply lasts_iff; vm_compute; split; discriminate|]. split; [apply lasts_iff; vm_compute; split; discriminate|].
    split; vm_compute; reflexivity.
Qed.
Print Assumptions C126_coarse_refuted.
(** Refuted: a day and hours which begin ten hours after its end are "adjacent". *)
Theorem C126_adjacent_refuted : exists p q t, holds p /\ holds q /\ divides (pp_res p) (pp_res q) /\ pp_is_adjacent p q = true /\
  (forall s, lasts p s -> s < t) /\ (forall s, lasts q s -> t < s).
Proof.
  exists (PyPeriod kDay (mk_period 0 0)), (PyPeriod kHour (mk_period 34 36)), (30 * 3600 * 10 ^ 18).
  split; [apply holds_iff; exists 0; split; cbn; lia|]. split; [apply holds_iff; exists 34; split; cbn; lia|].
  split; [split; [cbn; lia|intros [? _]; discriminate]|]. split; [vm_compute; reflexivity|].
  split; intros s (a & b & A & B & C); cbn in A, B; lia.
Qed.
Print Assumptions C126_adjacent_refuted.
(** Refuted: two periods of different units are never ordered, so that [sorted] leaves them as they are. *)
Theorem C126_order_refuted : exists p q, holds p /\ holds q /\ (forall s t, lasts p s -> lasts q t -> s < t) /\
  pp_lt p q = false /\ pp_lt q p = false /\ pp_eq p q = false.
Proof.
  exists (PyPeriod kDay (mk_period 0 0)), (PyPeriod kHour (mk_period 34 36)).
  split; [apply holds_iff; exists 0; split; cbn; lia|]. split; [apply holds_iff; exists 34; split; cbn; lia|].
  split; [intros s t (a & b & A & B & C) (a' & b' & A' & B' & C'); cbn in *; lia|]. repeat split; vm_compute; reflexivity.
Qed.
Print Assumptions C126_order_refuted.
