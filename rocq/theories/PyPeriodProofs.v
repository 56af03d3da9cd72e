From Verif Require Import Base DateModel DateSpec DateProofs DateProofs2 PeriodModel PeriodSpec PeriodProofs PeriodProofs2 PyPeriodModel PyPeriodSpec.
Open Scope Z_scope.
Ltac Zify.zify_post_hook ::= idtac.

(** ** The first of January *)
Lemma january_succ y : january (y + 1) = january y + year_length y.
Proof.
  unfold january, year_length, leapb.
  destruct (Z.eqb_spec (y mod 4) 0), (Z.eqb_spec (y mod 100) 0), (Z.eqb_spec (y mod 400) 0); cbn [andb orb negb];
  Z.div_mod_to_equations; lia.
Qed.
Lemma january_date y : date_from_days (january y) = mk_date y 1 1.
Proof.
  assert (ST : forall n z, date_from_days n = mk_date z 1 1 -> date_from_days (n + year_length z) = mk_date (z + 1) 1 1).
  { intros n z H. assert (A := next_year_first n). rewrite H in A. cbn [year] in A.
    assert (S0 : days_since_january (mk_date z 1 1) = 0) by (rewrite dsj_eq; cbn [year month day cum]; lia).
    rewrite S0, Z.sub_0_r in A. exact A. }
  assert (UP : forall k, date_from_days (january (1970 + Z.of_nat k)) = mk_date (1970 + Z.of_nat k) 1 1).
  { induction k as [|k IH]; [reflexivity|].
    replace (1970 + Z.of_nat (S k)) with (1970 + Z.of_nat k + 1) by lia. rewrite january_succ. apply ST. exact IH. }
  assert (DN : forall k, date_from_days (january (1970 - Z.of_nat k)) = mk_date (1970 - Z.of_nat k) 1 1).
  { induction k as [|k IH]; [reflexivity|].
    destruct (year_first_exists (1970 - Z.of_nat (S k))) as [n N]. assert (A := ST _ _ N).
    replace (1970 - Z.of_nat (S k) + 1) with (1970 - Z.of_nat k) in A by lia.
    rewrite <- IH in A. apply date_inj in A.
    assert (B := january_succ (1970 - Z.of_nat (S k))).
    replace (1970 - Z.of_nat (S k) + 1) with (1970 - Z.of_nat k) in B by lia.
    replace (january (1970 - Z.of_nat (S k))) with n by lia. exact N. }
  destruct (Z.le_gt_cases 1970 y).
  - assert (U := UP (Z.to_nat (y - 1970))). rewrite Z2Nat.id in U by lia. replace (1970 + (y - 1970)) with y in U by lia. exact U.
  - assert (U := DN (Z.to_nat (1970 - y))). rewrite Z2Nat.id in U by lia. replace (1970 - (1970 - y)) with y in U by lia. exact U.
Qed.
Definition first_of (x : Z) : Z :=
  january (1970 + x / 12) + days_since_january (mk_date (1970 + x / 12) (x mod 12 + 1) 1).
Lemma first_of_date x : date_from_days (first_of x) = mk_date (1970 + x / 12) (x mod 12 + 1) 1.
Proof.
  set (d := mk_date (1970 + x / 12) (x mod 12 + 1) 1).
  assert (B := Z.mod_pos_bound x 12 ltac:(lia)).
  assert (V : valid_date d).
  { split; cbn [d month day year]; [lia|]. assert (P := month_length_pos (1970 + x / 12) (x mod 12 + 1)). lia. }
  destruct (date_onto d V) as [n N]. assert (A := january_first n). rewrite N in A. cbn [d year] in A. fold d in A.
  rewrite <- january_date in A. apply date_inj in A. unfold first_of. fold d. rewrite <- A.
  replace (n - days_since_january d + days_since_january d) with n by lia. exact N.
Qed.
Lemma date_lt_iff n m : n < m <-> date_lt (date_from_days n) (date_from_days m).
Proof.
  split; [apply date_mono|]. intro H. destruct (Z.lt_trichotomy n m) as [L|[L|L]]; auto.
  - subst. exfalso. eapply date_lt_irrefl; eauto.
  - apply date_mono in L. exfalso. eapply date_lt_irrefl. eapply date_lt_trans; eauto.
Qed.

(** ** Instants *)
Lemma begins_iff r x t : begins r x t <-> t = instant r x.
Proof.
  destruct r; cbn [begins instant delta_as]; unfold day_as; cbn [delta_as]; try (split; intro; lia).
  - split.
    + intros (n & -> & H). rewrite <- january_date in H. apply date_inj in H. subst. lia.
    + intros ->. exists (january (1970 + x)). split; [lia|apply january_date].
  - split.
    + intros (n & m & -> & M & H & D). destruct D as [k D].
      assert (X1 : x / 12 = k) by (symmetry; apply (Z.div_unique x 12 k m); lia).
      assert (X2 : x mod 12 = m) by (symmetry; apply (Z.mod_unique x 12 k m); lia).
      assert (F := first_of_date x). rewrite X1, X2 in F. rewrite D, Z.div_mul in H by lia. rewrite <- F in H. apply date_inj in H.
      subst n. unfold first_of. lia.
    + intros ->. assert (B := Z.mod_pos_bound x 12 ltac:(lia)). assert (E := Z.div_mod x 12 ltac:(lia)).
      exists (first_of x), (x mod 12). split; [unfold first_of; lia|]. split; [lia|].
      replace ((x - x mod 12) / 12) with (x / 12) by (apply Z.div_unique_exact; lia).
      split; [apply first_of_date|]. exists (x / 12). lia.
Qed.
Lemma month_instant x : instant kMonth x = first_of x * 86400000000000000000000.
Proof. reflexivity. Qed.
Lemma month_count t : count kMonth t =
  (year (date_from_days (t / 86400000000000000000000)) - 1970) * 12 + (month (date_from_days (t / 86400000000000000000000)) - 1).
Proof. reflexivity. Qed.
Lemma instant_succ r x : instant r x < instant r (x + 1).
Proof.
  destruct r; cbn [instant delta_as]; unfold day_as; cbn [delta_as]; try lia.
  - apply Z.mul_lt_mono_pos_r; [lia|]. apply date_lt_iff. rewrite !january_date. left. cbn [year]. lia.
  - change (first_of x * 86400000000000000000000 < first_of (x + 1) * 86400000000000000000000).
    apply Z.mul_lt_mono_pos_r; [lia|]. apply date_lt_iff. rewrite !first_of_date.
    unfold date_lt; cbn [year month day]. Z.div_mod_to_equations. lia.
Qed.
Lemma instant_mono_nat r k : forall x, instant r x < instant r (x + 1 + Z.of_nat k).
Proof.
  induction k as [|k IH]; intro x.
  - rewrite Z.add_0_r. apply instant_succ.
  - replace (x + 1 + Z.of_nat (S k)) with (x + 1 + Z.of_nat k + 1) by lia.
    eapply Z.lt_trans; [apply IH|apply instant_succ].
Qed.
Lemma instant_lt r x y : x < y <-> instant r x < instant r y.
Proof.
  assert (M : forall a b, a < b -> instant r a < instant r b).
  { intros a b H. assert (A := instant_mono_nat r (Z.to_nat (b - a - 1)) a).
    replace (a + 1 + Z.of_nat (Z.to_nat (b - a - 1))) with b in A by lia. exact A. }
  split; [apply M|]. intro H. destruct (Z.lt_trichotomy x y) as [L|[L|L]]; auto; [subst; lia|].
  apply M in L. lia.
Qed.
Lemma instant_le r x y : x <= y <-> instant r x <= instant r y.
Proof. assert (A := instant_lt r y x). lia. Qed.
Lemma count_spec r t : instant r (count r t) <= t < instant r (count r t + 1).
Proof.
  destruct r; try rewrite !month_instant, !month_count; cbn [instant count]; unfold day_as; cbn [delta_as];
  try (Z.div_mod_to_equations; lia).
  - set (n := t / 86400000000000000000000).
    assert (V := date_valid n). destruct V as [V1 V2].
    assert (A : ~ n < january (1970 + (year (date_from_days n) - 1970))).
    { intro H. apply date_lt_iff in H. rewrite january_date in H. unfold date_lt in H; cbn [year month day] in H. lia. }
    assert (B : n < january (1970 + (year (date_from_days n) - 1970 + 1))).
    { apply date_lt_iff. rewrite january_date. unfold date_lt; cbn [year month day]. lia. }
    subst n. Z.div_mod_to_equations. lia.
  - set (n := t / 86400000000000000000000).
    assert (V := date_valid n). destruct V as [V1 V2].
    set (x := (year (date_from_days n) - 1970) * 12 + (month (date_from_days n) - 1)).
    assert (X1 : x / 12 = year (date_from_days n) - 1970).
    { symmetry. apply (Z.div_unique x 12 _ (month (date_from_days n) - 1)); unfold x; lia. }
    assert (X2 : x mod 12 = month (date_from_days n) - 1).
    { symmetry. apply (Z.mod_unique x 12 (year (date_from_days n) - 1970)); unfold x; lia. }
    assert (A : ~ n < first_of x).
    { intro H. apply date_lt_iff in H. rewrite first_of_date, X1, X2 in H. unfold date_lt in H; cbn [year month day] in H. lia. }
    assert (B : n < first_of (x + 1)).
    { apply date_lt_iff. rewrite first_of_date. unfold date_lt; cbn [year month day]. clearbody x. Z.div_mod_to_equations. lia. }
    clearbody x. subst n. Z.div_mod_to_equations. lia.
Qed.
Lemma count_ge r x t : x <= count r t <-> instant r x <= t.
Proof.
  assert (C := count_spec r t). split; intro H.
  - apply (instant_le r) in H. lia.
  - destruct (Z.le_gt_cases x (count r t)) as [|G]; auto. assert (L : count r t + 1 <= x) by lia. apply (instant_le r) in L. lia.
Qed.
Lemma count_lt r x t : count r t < x <-> t < instant r x.
Proof. assert (A := count_ge r x t). lia. Qed.
Lemma count_instant r x : count r (instant r x) = x.
Proof.
  assert (A := count_ge r x (instant r x)). assert (B := count_lt r (x + 1) (instant r x)). assert (C := instant_succ r x). lia.
Qed.
Lemma count_eq r x t : count r t = x <-> in_span r x t.
Proof.
  unfold in_span. split.
  - intros <-. exists (instant r (count r t)), (instant r (count r t + 1)). rewrite !begins_iff. assert (C := count_spec r t). auto.
  - intros (a & b & A & B & C). apply begins_iff in A, B. subst.
    assert (G := count_ge r x t). assert (L := count_lt r (x + 1) t). lia.
Qed.
Lemma cast_same r x : cast r (Date64 r x) = x.
Proof. apply count_instant. Qed.

(** ** Units that divide one another *)
Lemma day_of_months r x : r = kYear \/ r = kMonth -> exists n, instant r x = n * day_as.
Proof. intros [-> | ->]; cbn [instant]; eexists; reflexivity. Qed.
Lemma linear_exact fine t : fine <> kYear -> fine <> kMonth -> (delta_as fine | t) -> instant fine (count fine t) = t.
Proof.
  intros NY NM [q ->]. destruct fine; try congruence; cbn [instant count delta_as]; rewrite Z.div_mul by discriminate; reflexivity.
Qed.
Lemma divides_delta coarse fine : resolution_index fine <= resolution_index coarse -> coarse <> kYear -> coarse <> kMonth ->
  (delta_as fine | delta_as coarse).
Proof.
  intros R NY NM. destruct coarse; try congruence; destruct fine; cbn [resolution_index] in R; try lia;
  apply Z.mod_divide; try discriminate; reflexivity.
Qed.
Lemma instant_linear r x : r <> kYear -> r <> kMonth -> instant r x = x * delta_as r.
Proof. destruct r; try congruence; reflexivity. Qed.
Lemma months_of_year x : count kMonth (instant kYear x) = 12 * x.
Proof. cbn [instant count]. unfold day_as. rewrite Z.div_mul by discriminate. rewrite january_date. cbn [year month]. lia. Qed.
Lemma divides_exact coarse fine x : divides coarse fine ->
  instant fine (count fine (instant coarse x)) = instant coarse x.
Proof.
  intros [R W].
  assert (DEC : forall a b : resolution, {a = b} + {a <> b}) by decide equality.
  destruct (DEC fine coarse) as [->|NE]; [rewrite count_instant; reflexivity|].
  destruct (DEC fine kYear) as [->|NY]; [destruct coarse; cbn [resolution_index] in R; try lia; congruence|].
  destruct (DEC fine kMonth) as [->|NM].
  { destruct coarse; cbn [resolution_index] in R; try lia; try congruence. rewrite months_of_year.
    cbn [instant]. rewrite (Z.mul_comm 12 x), Z.div_mul, Z.mod_mul by lia.
    rewrite dsj_eq by (cbn [month]; lia). cbn [year month day]. change (cum (1970 + x) (0 + 1)) with 0. f_equal. ring. }
  apply linear_exact; auto.
  destruct (DEC coarse kYear) as [->|CY]; [|destruct (DEC coarse kMonth) as [->|CM]].
  - destruct (day_of_months kYear x (or_introl eq_refl)) as [n ->]. apply Z.divide_mul_r.
    apply divides_delta; try discriminate. destruct fine; cbn [resolution_index] in *; try lia; try congruence. exfalso. apply W. auto.
  - destruct (day_of_months kMonth x (or_intror eq_refl)) as [n ->]. apply Z.divide_mul_r.
    apply divides_delta; try discriminate. destruct fine; cbn [resolution_index] in *; try lia; try congruence. exfalso. apply W. auto.
  - rewrite instant_linear by auto. apply Z.divide_mul_r. apply divides_delta; auto.
Qed.

(** ** Periods *)
Lemma lasts_iff p t : lasts p t <-> covers (pp_core p) (count (pp_res p) t).
Proof.
  unfold lasts, covers. split.
  - intros (a & b & A & B & C). apply begins_iff in A, B. subst.
    assert (G := count_ge (pp_res p) (p_begin (pp_core p)) t). assert (L := count_lt (pp_res p) (p_last (pp_core p) + 1) t). lia.
  - intros C. exists (instant (pp_res p) (p_begin (pp_core p))), (instant (pp_res p) (p_last (pp_core p) + 1)).
    rewrite !begins_iff. split; [reflexivity|]. split; [reflexivity|].
    assert (G := count_ge (pp_res p) (p_begin (pp_core p)) t). assert (L := count_lt (pp_res p) (p_last (pp_core p) + 1) t). lia.
Qed.
Lemma holds_iff p : holds p <-> nonempty (pp_core p).
Proof.
  split.
  - intros [t H]. apply lasts_iff in H. eexists; eauto.
  - intros [x H]. exists (instant (pp_res p) x). apply lasts_iff. rewrite count_instant. exact H.
Qed.
Lemma at_instant_iff d t : at_instant d t <-> t = instant (d_unit d) (d_count d).
Proof. apply begins_iff. Qed.
Lemma cast_at r d t : at_instant d t -> cast r d = count r t.
Proof. intro H. apply at_instant_iff in H. subst. reflexivity. Qed.
Lemma min_unit_same r : min_time64_unit r r = r.
Proof. unfold min_time64_unit. rewrite Z.ltb_irrefl. reflexivity. Qed.
Lemma period_eta c : mk_period (p_begin c) (p_last c) = c.
Proof. destruct c; reflexivity. Qed.
Lemma ctor_within b e : period_ctor b e true = mk_period b e.
Proof. unfold period_ctor. f_equal. lia. Qed.
Lemma new_same r b e : new_period (Date64 r b) (Date64 r e) true = PyPeriod r (mk_period b e).
Proof.
  unfold new_period. cbn [d_unit negb]. rewrite min_unit_same, !cast_same, ctor_within. reflexivity.
Qed.
Lemma in_unit_eq p c : in_unit p c = PyPeriod (pp_res p) c.
Proof. unfold in_unit. rewrite new_same, period_eta. reflexivity. Qed.
Lemma as_resolution_eq p r : as_resolution p r = PyPeriod r (mk_period (cast r (pp_begin p)) (cast r (pp_last p))).
Proof. apply new_same. Qed.
Lemma same_unit_iff a b : same_unit a b = true <-> a = b.
Proof. unfold same_unit. rewrite Z.eqb_eq. destruct a, b; cbn; split; intro H; congruence. Qed.
Lemma same_unit_refl a : same_unit a a = true.
Proof. apply same_unit_iff. reflexivity. Qed.
Lemma convert_res p q : pp_res (convert p q) = pp_res p.
Proof.
  unfold convert. destruct (same_unit (pp_res p) (pp_res q)) eqn:E; cbn [negb].
  - apply same_unit_iff in E. auto.
  - rewrite as_resolution_eq. reflexivity.
Qed.
(** Conversion to a unit made of whole units: every span touched. *)
Lemma as_resolution_covers q r x : divides r (pp_res q) -> nonempty (pp_core q) ->
  (covers (mk_period (cast r (pp_begin q)) (cast r (pp_last q))) x <-> exists t, count r t = x /\ lasts q t).
Proof.
  intros D N. apply nonempty_iff in N. set (b := p_begin (pp_core q)) in *. set (l := p_last (pp_core q)) in *.
  set (rq := pp_res q) in *. unfold covers, cast, pp_begin, pp_last. cbn [p_begin p_last d_unit d_count]. fold rq b l.
  assert (BL : instant rq b <= instant rq l) by (apply instant_le; lia).
  split.
  - intros [A B]. destruct (Z.eq_dec (count r (instant rq b)) x) as [E|E].
    + exists (instant rq b). split; auto. apply lasts_iff. fold rq. rewrite count_instant. unfold covers. fold b l. lia.
    + exists (instant r x). split; [apply count_instant|]. apply lasts_iff. fold rq. unfold covers. fold b l.
      assert (A' : instant rq b < instant r x) by (apply count_lt; lia).
      apply count_ge in B. split; [apply count_ge; lia|].
      assert (count rq (instant r x) < l + 1); [|lia]. apply count_lt. assert (S1 := instant_succ rq l). lia.
  - intros (t & <- & H). apply lasts_iff in H. fold rq in H. unfold covers in H. fold b l in H. destruct H as [H1 H2].
    apply count_ge in H1. split.
    + apply count_ge. assert (C := count_spec r (instant rq b)). lia.
    + apply count_ge. assert (C := count_spec r t). rewrite <- (divides_exact r rq (count r t) D).
      apply instant_le. destruct (Z.le_gt_cases (count rq (instant r (count r t))) l) as [|G]; auto.
      assert (M : count rq (instant r (count r t)) <= count rq t); [|lia].
      apply count_ge. rewrite (divides_exact r rq _ D). lia.
Qed.
Lemma convert_covers p q x : divides (pp_res p) (pp_res q) -> nonempty (pp_core q) ->
  (covers (pp_core (convert p q)) x <-> exists t, count (pp_res p) t = x /\ lasts q t).
Proof.
  intros D N. unfold convert. destruct (same_unit (pp_res p) (pp_res q)) eqn:E; cbn [negb].
  - apply same_unit_iff in E. split.
    + intro C. exists (instant (pp_res q) x). rewrite E, count_instant. split; auto. apply lasts_iff. rewrite count_instant. auto.
    + intros (t & <- & H). apply lasts_iff in H. rewrite E. exact H.
  - rewrite as_resolution_eq. cbn [pp_core]. apply as_resolution_covers; auto.
Qed.
Lemma convert_nonempty p q : divides (pp_res p) (pp_res q) -> nonempty (pp_core q) -> nonempty (pp_core (convert p q)).
Proof.
  intros D N. destruct (proj2 (holds_iff q) N) as [t T]. exists (count (pp_res p) t). apply convert_covers; eauto.
Qed.
Lemma same_span_iff r t u : same_span r t u <-> count r t = count r u.
Proof.
  unfold same_span. split.
  - intros (x & A & B). apply count_eq in A, B. congruence.
  - intro E. exists (count r t). split; apply count_eq; congruence.
Qed.
Lemma list_lasts_iff l t : lasts_list l t <-> covered (l_core l) (count (l_unit l) t).
Proof.
  unfold lasts_list, covered. split; intros (p & A & B); exists p; split; auto; apply (lasts_iff (PyPeriod (l_unit l) p)); exact B.
Qed.
