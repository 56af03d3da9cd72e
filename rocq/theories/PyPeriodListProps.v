(** C127 Lists of periods of dates. *)
From Coq Require Import Permutation.
From Verif Require Import Base DateModel DateSpec PeriodModel PeriodSpec PeriodProofs PeriodProofs2 PeriodProps PyPeriodModel PyPeriodSpec PyPeriodProofs.
Open Scope Z_scope.
Ltac Zify.zify_post_hook ::= idtac.

(** The constructor: the two rows of the array are the first and the last dates; everything else is refused. *)
Theorem C127_constructor : forall u b e, length b = length e ->
  exists l, new_list (DArray [2; zlen b] (Some u) (b ++ e)) = Ok l /\
    periods_of l = map (fun x => (Date64 u (fst x), Date64 u (snd x))) (combine b e).
Proof.
  intros u b e H. unfold new_list. cbn [da_unit da_shape da_data].
  change (Z.to_nat 2) with 2%nat. unfold zlen. rewrite Nat2Z.id. cbn [rows_of].
  rewrite firstn_app, firstn_all, Nat.sub_diag, firstn_O, app_nil_r.
  rewrite skipn_app, skipn_all, Nat.sub_diag, skipn_O. cbn [app]. rewrite H, firstn_all.
  eexists. split; [reflexivity|]. unfold periods_of. cbn [l_unit l_core]. revert e H.
  induction b as [|x b IH]; intros [|y e] H; try discriminate H; [reflexivity|].
  cbn [records combine map fst snd p_begin p_last]. f_equal. apply IH. injection H as H. exact H.
Qed.
Print Assumptions C127_constructor.
Theorem C127_constructor_refused : forall a, (forall n, In n (da_shape a) -> 0 <= n) ->
  (da_unit a = None \/ length (da_shape a) <> 2%nat \/ nth 0 (da_shape a) 0 <> 2) ->
  exists w, new_list a = Throw w.
Proof.
  intros [sh u d] P H. unfold new_list. cbn [da_unit da_shape da_data] in *.
  destruct u as [u|]; [|eexists; reflexivity].
  destruct sh as [|n [|m [|k t]]]; try (eexists; reflexivity).
  destruct H as [H|[H|H]]; [discriminate|cbn in H; congruence|]. cbn [nth] in H.
  assert (N := P n (or_introl eq_refl)).
  assert (R : forall k w l, length (rows_of k w l) = k) by (induction k; intros; cbn; congruence).
  specialize (R (Z.to_nat n) (Z.to_nat m) d).
  destruct (rows_of (Z.to_nat n) (Z.to_nat m) d) as [|x [|y [|z r]]]; try (eexists; reflexivity). cbn in R. lia.
Qed.
Print Assumptions C127_constructor_refused.

(** A copied list is the same. *)
Theorem C127_copy : forall l, periods_of (list_copy l) = periods_of l /\ l_unit (list_copy l) = l_unit l.
Proof. intros [u c]. split; reflexivity. Qed.
Print Assumptions C127_copy.

Lemma count_mono r a b : a <= b -> count r a <= count r b.
Proof. intro H. apply count_ge. assert (C := count_spec r a). lia. Qed.
Lemma cast_mono r u x y : x <= y -> cast r (Date64 u x) <= cast r (Date64 u y).
Proof. intro H. apply count_mono. apply instant_le. exact H. Qed.
Lemma map_mid {A B} (f : A -> B) (l : list A) a x b y c : map f l = a ++ x :: b ++ y :: c ->
  exists a' x' b' y' c', l = a' ++ x' :: b' ++ y' :: c' /\ f x' = x /\ f y' = y.
Proof.
  revert l. induction a as [|z a IH]; intros [|w l] H; try discriminate H; cbn in H.
  - injection H as H0 H. revert l H. induction b as [|z b IHb]; intros [|v l] H; try discriminate H; cbn in H.
    + injection H as H1 H. exists [], w, [], v, l. auto.
    + injection H as H1 H. destruct (IHb l H) as (a' & x' & b' & y' & c' & E & E1 & E2).
      destruct a' as [|a0 a'].
      * cbn in E. injection E as Ew El. exists [], w, (v :: b'), y', c'. subst. split; auto.
      * cbn in E. injection E as Ew El. exists [], w, (v :: a' ++ x' :: b'), y', c'. subst. split; [|auto].
        cbn. f_equal. f_equal. rewrite <- app_assoc. reflexivity.
  - injection H as H0 H. destruct (IH l H) as (a' & x' & b' & y' & c' & E & E1 & E2).
    exists (w :: a'), x', b', y', c'. subst. auto.
Qed.
Lemma cast_sorted r u dates : sorted_dates dates -> sorted_dates (map (fun x => cast r (Date64 u x)) dates).
Proof.
  intros H l1 a l2 b l3 E. apply (map_mid (fun x => cast r (Date64 u x))) in E. destruct E as (a' & x & b' & y & c' & E & <- & <-).
  apply cast_mono. eapply H. exact E.
Qed.
Lemma Forall2_map_l {A B C} (P : B -> C -> Prop) (f : A -> B) l m : Forall2 P (map f l) m -> Forall2 (fun a c => P (f a) c) l m.
Proof.
  revert m. induction l as [|x l IH]; intros m H; inversion H; subst; constructor; auto.
Qed.
Lemma Forall2_imp {A B} (P R : A -> B -> Prop) l m : (forall a b, P a b -> R a b) -> Forall2 P l m -> Forall2 R l m.
Proof. intros H. induction 1; constructor; auto. Qed.

(** belong_to_a_period: whatever the unit of the dates, the flag tells whether the date is in a period. *)
Theorem C127_belong : forall l u dates, chronological (l_core l) -> sorted_dates dates ->
  (forall d, In d dates -> exists t s, begins u d t /\ lasts_list l s /\ t <= s) ->
  exists flags, list_belong l u dates = Ok flags /\
    Forall2 (fun d f => f = true <-> exists t, begins u d t /\ lasts_list l t) dates flags.
Proof.
  intros l u dates C HS B. unfold list_belong.
  destruct (C14_belong (l_core l) (map (fun x => cast (l_unit l) (Date64 u x)) dates) C (cast_sorted _ _ _ HS)) as (flags & F & G).
  - intros d D. apply in_map_iff in D. destruct D as (x & <- & X). destruct (B x X) as (t & s & T & HL & TS).
    apply list_lasts_iff in HL. destruct HL as (p & P1 & P2). exists p. split; auto.
    apply begins_iff in T. subst t. assert (M := count_mono (l_unit l) _ _ TS). unfold covers in P2.
    unfold cast. cbn [d_unit d_count]. lia.
  - exists flags. split; [exact F|]. apply Forall2_map_l in G. revert G. apply Forall2_imp. intros d f H. rewrite H. split.
    + intro K. exists (instant u d). split; [apply begins_iff; reflexivity|]. apply list_lasts_iff. exact K.
    + intros (t & T & K). apply begins_iff in T. subst t. apply list_lasts_iff in K. exact K.
Qed.
Print Assumptions C127_belong.
(** Two periods of days, dates in hours: 1970-01-01T10, 1970-01-04T00, 1970-01-05T23. *)
Example C127_belong_ex : let l := PyList kDay [mk_period 0 1; mk_period 4 9] in
  list_belong l kHour [10; 72; 119] = Ok [true; false; true] /\ chronological (l_core l) /\ sorted_dates [10; 72; 119].
Proof.
  split; [vm_compute; reflexivity|]. split.
  - apply sorted_disjoint_iff; [|reflexivity]. intros p [<-|[<-|[]]]; apply nonempty_iff; cbn; lia.
  - intros [|? [|? [|? [|? ?]]]] a [|? [|? [|? ?]]] b l3 E; cbn in E; inversion E; subst; try lia;
    repeat match goal with H : [] = ?x ++ _ |- _ => destruct x; discriminate H end.
Qed.

(** cross_a_period: a period is met from the date on and up to the last date. *)
Theorem C127_cross : forall l u dates last_date, chronological (l_core l) -> sorted_dates dates ->
  last (map Some dates) None = Some last_date ->
  exists flags, list_cross l u dates = Ok flags /\
    Forall2 (fun d f => f = true <-> exists a b t, begins u d a /\ begins u last_date b /\ lasts_list l t /\ a <= t <= b) dates flags.
Proof.
  intros l u dates z C HS HL. unfold list_cross.
  assert (ML : forall f : Z -> Z, last (map Some (map f dates)) None = Some (f z)).
  { intro f. revert HL. clear. induction dates as [|x [|y q] IH]; intro H; [discriminate| |].
    - cbn in *. congruence.
    - change (last (map Some (y :: q)) None = Some z) in H. exact (IH H). }
  destruct (C15_cross (l_core l) (map (fun x => cast (l_unit l) (Date64 u x)) dates) (cast (l_unit l) (Date64 u z)) C (cast_sorted _ _ _ HS) (ML _)) as (flags & F & G).
  exists flags. split; [exact F|].
  assert (LE : forall d, In d dates -> d <= z).
  { intros d D. destruct (in_split d dates D) as (l1 & l2 & E).
    destruct (list_eq_dec Z.eq_dec l2 []) as [->|N].
    - subst dates. rewrite map_app in HL. cbn [map] in HL. rewrite last_last in HL. injection HL as <-. lia.
    - destruct (exists_last N) as (l2' & y & ->). subst dates.
      rewrite map_app in HL. cbn [map] in HL. rewrite map_app in HL. cbn [map] in HL. rewrite app_comm_cons, app_assoc, last_last in HL.
      injection HL as ->. eapply HS. reflexivity. }
  apply Forall2_map_l in G.
  assert (G' : Forall2 (fun d f => d <= z /\ (f = true <-> exists t, covered (l_core l) t /\ cast (l_unit l) (Date64 u d) <= t <= cast (l_unit l) (Date64 u z))) dates flags).
  { clear - G LE. revert G. revert LE. generalize z. intros z0. revert flags.
    induction dates as [|x q IH]; intros flags LE H; inversion H; subst; constructor.
    - split; [apply LE; left; reflexivity|assumption].
    - apply IH; auto. intros d D. apply LE. right. exact D. }
  revert G'. apply Forall2_imp. intros d f [DZ H]. rewrite H. unfold cast. cbn [d_unit d_count].
  assert (I := proj1 (instant_le u d z) DZ). split.
  - intros (x & X & X1 & X2). exists (instant u d), (instant u z).
    destruct (Z.eq_dec x (count (l_unit l) (instant u d))) as [E|E].
    + exists (instant u d). rewrite !begins_iff. split; [reflexivity|]. split; [reflexivity|]. split; [apply list_lasts_iff; rewrite <- E; exact X|lia].
    + exists (instant (l_unit l) x). rewrite !begins_iff. split; [reflexivity|]. split; [reflexivity|].
      split; [apply list_lasts_iff; rewrite count_instant; exact X|].
      apply count_ge in X2. assert (Y := count_lt (l_unit l) x (instant u d)). lia.
  - intros (a & b & t & A & B & T & AB). apply begins_iff in A, B. subst a b. apply list_lasts_iff in T.
    exists (count (l_unit l) t). split; auto. split; apply count_mono; lia.
Qed.
Print Assumptions C127_cross.

Lemma delta_cast_le r d x : x <= delta_cast r d <-> x * delta_as r <= e_count d * delta_as (e_unit d).
Proof.
  unfold delta_cast. assert (P : 0 < delta_as r) by (destruct r; cbn; lia). set (v := delta_as r) in *.
  set (w := e_count d * delta_as (e_unit d)). clearbody v w.
  assert (M := Z.div_mod w v ltac:(lia)). assert (B := Z.mod_pos_bound w v P). split; intro H; nia.
Qed.
(** The lengths used: a unit of constant length lasts as long as each of its spans, a year is the mean
    year of the Gregorian calendar and a month a twelfth of it. *)
Theorem C127_lengths :
  (forall r x a b, constant r -> begins r x a -> begins r (x + 1) b -> b - a = lasting (Delta64 r 1)) /\
  400 * lasting (Delta64 kYear 1) = 146097 * lasting (Delta64 kDay 1) /\
  12 * lasting (Delta64 kMonth 1) = lasting (Delta64 kYear 1) /\
  (forall x a b, begins kYear x a -> begins kYear (x + 400) b -> b - a = lasting (Delta64 kYear 400)).
Proof.
  split; [|split; [reflexivity|split; [reflexivity|]]].
  - intros r x a b [N1 N2] A B. apply begins_iff in A, B. subst. rewrite !instant_linear by auto. unfold lasting. cbn [e_count e_unit]. lia.
  - intros x a b A B. apply begins_iff in A, B. subst. unfold lasting. cbn [e_count e_unit instant]. unfold january, day_as. cbn [delta_as].
    replace (1970 + (x + 400) - 1969) with (1970 + x - 1969 + 100 * 4) by lia.
    replace (1970 + (x + 400) - 1901) with (1970 + x - 1901 + 4 * 100) by lia.
    replace (1970 + (x + 400) - 1601) with (1970 + x - 1601 + 1 * 400) by lia.
    rewrite !Z.div_add by lia. lia.
Qed.
Print Assumptions C127_lengths.

(** is_it_close: the date, rounded to the unit of the list, is at most epsilon away from one of the
    dates of a period written in that unit. *)
Theorem C127_is_close : forall l d epsilon, (forall p, In p (l_core l) -> nonempty p) -> constant (l_unit l) ->
  let e := match epsilon with Some e => lasting e | None => 0 end in 0 <= e ->
  (list_is_close l d epsilon = true <->
   exists t x s, begins (l_unit l) (cast (l_unit l) d) t /\ begins (l_unit l) x s /\ lasts_list l s /\ Z.abs (t - s) <= e).
Proof.
  intros l d epsilon N [NM NY] e E. unfold list_is_close.
  set (e' := match epsilon with Some e0 => if e_count e0 =? 0 then Delta64 kSecond 0 else e0 | None => Delta64 kSecond 0 end).
  assert (EE : e_count e' * delta_as (e_unit e') = e).
  { unfold e', e, lasting. destruct epsilon as [e0|]; [|reflexivity]. destruct (Z.eqb_spec (e_count e0) 0) as [Z0|]; [rewrite Z0|]; reflexivity. }
  set (r := l_unit l) in *. set (y := cast r d).
  assert (P : 0 < delta_as r) by (destruct r; cbn; lia).
  assert (E' : 0 <= delta_cast r e') by (apply delta_cast_le; lia).
  rewrite list_is_close_iff by auto. split.
  - intros (x & X & A). exists (instant r y), x, (instant r x). rewrite !begins_iff. split; [reflexivity|]. split; [reflexivity|].
    split; [apply list_lasts_iff; fold r; rewrite count_instant; exact X|].
    rewrite !instant_linear by auto. apply delta_cast_le in A. rewrite EE in A. rewrite <- Z.mul_sub_distr_r, Z.abs_mul, (Z.abs_eq (delta_as r)) by lia. exact A.
  - intros (t & x & s & T & X & HL & A). apply begins_iff in T, X. subst t s. apply list_lasts_iff in HL. fold r in HL. rewrite count_instant in HL.
    exists x. split; [exact HL|]. apply delta_cast_le. rewrite EE.
    rewrite !instant_linear, <- Z.mul_sub_distr_r, Z.abs_mul, (Z.abs_eq (delta_as r)) in A by (auto; lia). exact A.
Qed.
Print Assumptions C127_is_close.
Example C127_is_close_ex : let l := PyList kSecond [mk_period 0 10; mk_period 60 70] in
  list_is_close l (Date64 kMillisecond 12900) (Some (Delta64 kMillisecond 2500)) = true /\
  list_is_close l (Date64 kMillisecond 13900) (Some (Delta64 kMillisecond 2500)) = false /\
  list_is_close l (Date64 kMinute 1) None = true.
Proof. repeat split; vm_compute; reflexivity. Qed.

(** join_adjacent_periods: the periods separated by at most epsilon are joined; the object is modified only
    if [inplace]. *)
Theorem C127_join : forall l epsilon inplace, chronological (l_core l) -> constant (l_unit l) ->
  let e := match epsilon with Some e => lasting e | None => 0 end in
  exists r, list_join l epsilon inplace = (if inplace then (r, Self) else (l, New r)) /\
    l_unit r = l_unit l /\ chronological (l_core r) /\
    forall t, lasts_list r t <-> lasts_list l t \/
      exists l1 p q l2 a b c, l_core l = l1 ++ p :: q :: l2 /\
        begins (l_unit l) (p_last p) a /\ begins (l_unit l) (p_last p + 1) b /\ begins (l_unit l) (p_begin q) c /\
        c - a <= e /\ b <= t < c.
Proof.
  intros l epsilon inplace C [NM NY] e. unfold list_join.
  set (k := match epsilon with Some e0 => if e_count e0 =? 0 then 0 else delta_cast (l_unit l) e0 | None => 0 end).
  assert (P : 0 < delta_as (l_unit l)) by (destruct (l_unit l); cbn; lia).
  assert (K : forall x, x <= k <-> x * delta_as (l_unit l) <= e).
  { intro x. unfold k, e, lasting. destruct epsilon as [e0|]; [|nia]. destruct (Z.eqb_spec (e_count e0) 0) as [Z0|_].
    - rewrite Z0. nia.
    - apply delta_cast_le. }
  exists (PyList (l_unit l) (pl_join (l_core l) k)). split; [destruct inplace; reflexivity|]. split; [reflexivity|].
  cbn [l_core]. destruct (C16_join (l_core l) k C) as (J1 & _ & J2). split; [exact J1|].
  intro t. rewrite !list_lasts_iff. cbn [l_core l_unit]. rewrite J2. set (r := l_unit l) in *. split.
  - intros [H|(l1 & p & q & l2 & E & G & T)]; [left; exact H|right].
    exists l1, p, q, l2, (instant r (p_last p)), (instant r (p_last p + 1)), (instant r (p_begin q)). rewrite !begins_iff.
    split; [exact E|]. split; [reflexivity|]. split; [reflexivity|]. split; [reflexivity|]. split.
    + apply K in G. rewrite !instant_linear by auto. lia.
    + assert (X := count_ge r (p_last p + 1) t). assert (Y := count_lt r (p_begin q) t). lia.
  - intros [H|(l1 & p & q & l2 & a & b & c & E & A & B & G & D & T)]; [left; exact H|right].
    apply begins_iff in A, B, G. subst a b c. exists l1, p, q, l2. split; [exact E|]. split.
    + apply K. rewrite !instant_linear in D by auto. lia.
    + assert (X := count_ge r (p_last p + 1) t). assert (Y := count_lt r (p_begin q) t). lia.
Qed.
Print Assumptions C127_join.

(** filter: no period as long as the duration is lost, those kept are longer than the duration less one
    unit, and exactly the periods as long as the duration are kept when the unit of the list divides it. *)
Theorem C127_filter : forall l d, constant (l_unit l) ->
  exists r, list_filter l d = (l, New r) /\ l_unit r = l_unit l /\
    forall p, let long := p_duration p * delta_as (l_unit l) in
      (In p (l_core r) -> In p (l_core l) /\ lasting d - delta_as (l_unit l) < long) /\
      (In p (l_core l) -> lasting d <= long -> In p (l_core r)) /\
      ((delta_as (l_unit l) | lasting d) -> (In p (l_core r) <-> In p (l_core l) /\ lasting d <= long)).
Proof.
  intros l d K. eexists. split; [reflexivity|]. split; [reflexivity|]. intros p. cbn [l_core]. cbv zeta.
  destruct (C17_filter (l_core l) (delta_cast (l_unit l) d) p) as [_ F]. rewrite F. clear F.
  assert (P : 0 < delta_as (l_unit l)) by (destruct (l_unit l); cbn; lia).
  assert (G := delta_cast_le (l_unit l) d). fold (lasting d) in G. unfold p_duration, p_end.
  set (n := p_last p - p_begin p + 1). replace (p_last p + 1 - p_begin p) with n by (unfold n; lia).
  set (c := delta_cast (l_unit l) d) in *. set (v := delta_as (l_unit l)) in *.
  assert (G1 := proj1 (G c) ltac:(lia)). assert (G2 : lasting d < (c + 1) * v).
  { destruct (Z.lt_ge_cases (lasting d) ((c + 1) * v)); auto. apply G in H. lia. }
  split; [intros [A B]; split; auto; nia|]. split; [intros A B; split; auto; nia|].
  intros [m M]. rewrite M in *. assert (m = c).
  { clear G. destruct (Z.lt_trichotomy m c) as [X|[X|X]]; auto; exfalso; nia. }
  subst m. clear G G1 G2 M. split; intros [A B]; split; auto; nia.
Qed.
Print Assumptions C127_filter.
(** Refuted: a list of seconds, filtered with 1.5 s, keeps a period of one second. *)
Theorem C127_filter_refuted : exists l d p r, list_filter l d = (l, New r) /\ In p (l_core r) /\
  p_duration p * delta_as (l_unit l) < lasting d.
Proof.
  exists (PyList kSecond [mk_period 5 5]), (Delta64 kMillisecond 1500), (mk_period 5 5), (PyList kSecond [mk_period 5 5]).
  split; [vm_compute; reflexivity|]. split; [left; reflexivity|]. vm_compute. reflexivity.
Qed.
Print Assumptions C127_filter_refuted.

(** within and intersection, the period being in the unit of the list. *)
Theorem C127_restrict : forall l p, l_unit l = pp_res p -> holds p -> (forall q, In q (l_core l) -> nonempty q) ->
  (exists r, list_within l p = (l, New r) /\ l_unit r = l_unit l /\
     forall q, In q (l_core r) <-> In q (l_core l) /\ exists t, lasts p t /\ lasts (PyPeriod (l_unit l) q) t) /\
  (exists r, list_intersection l p = (l, New r) /\ l_unit r = l_unit l /\
     forall t, lasts_list r t <-> lasts_list l t /\ lasts p t).
Proof.
  intros l p U H N. apply holds_iff in H. assert (BC : as_base_class p = pp_core p) by (unfold as_base_class; rewrite ctor_within, period_eta; reflexivity).
  split; (eexists; split; [reflexivity|]; split; [reflexivity|]); rewrite BC.
  - intro q. cbn [l_core]. destruct (C17_within (l_core l) (pp_core p) q H N) as [_ W]. rewrite W. split; intros [A (t & B & C)]; split; auto.
    + exists (instant (pp_res p) t). rewrite !lasts_iff. cbn [pp_res pp_core]. rewrite U, !count_instant. auto.
    + apply lasts_iff in B, C. cbn [pp_res pp_core] in C. rewrite U in C. eauto.
  - intro t. rewrite !list_lasts_iff, lasts_iff. cbn [l_core l_unit]. rewrite U.
    destruct (C17_intersection (l_core l) (pp_core p)) as [W _]. apply W.
Qed.
Print Assumptions C127_restrict.
(** Refuted: the unit of the period is ignored. A list of hours (1970-01-02T00 to T23) restricted to the day
    1970-01-02 is empty. *)
Theorem C127_restrict_units_refuted : exists l p t, holds p /\ divides (pp_res p) (l_unit l) /\
  (forall q, In q (l_core l) -> nonempty q) /\ lasts p t /\ lasts_list l t /\
  list_within l p = (l, New (PyList (l_unit l) [])) /\ list_intersection l p = (l, New (PyList (l_unit l) [])).
Proof.
  exists (PyList kHour [mk_period 24 47]), (PyPeriod kDay (mk_period 1 1)), (30 * 3600 * 10 ^ 18).
  split; [apply holds_iff; exists 1; split; cbn; lia|]. split; [split; [cbn; lia|intros [? _]; discriminate]|].
  split; [intros q [<-|[]]; apply nonempty_iff; cbn; lia|].
  split; [apply lasts_iff; vm_compute; split; discriminate|].
  split; [apply list_lasts_iff; exists (mk_period 24 47); split; [left; reflexivity|]; vm_compute; split; discriminate|].
  split; reflexivity.
Qed.
Print Assumptions C127_restrict_units_refuted.

(** merge and sort modify the list and return it. *)
Theorem C127_merge : forall l m, l_unit l = l_unit m -> ordered_by_begin (l_core l) -> ordered_by_begin (l_core m) ->
  exists r, list_merge l m = Ok (r, Self) /\ l_unit r = l_unit l /\ chronological (l_core r) /\
    forall t, lasts_list r t <-> lasts_list l t \/ lasts_list m t.
Proof.
  intros l m U O1 O2. unfold list_merge. rewrite U, same_unit_refl. cbn [negb]. eexists. split; [reflexivity|]. split; [reflexivity|].
  cbn [l_core]. destruct (C13_merge _ _ O1 O2) as [M1 M2]. split; [exact M1|].
  intro t. rewrite !list_lasts_iff. cbn [l_core l_unit]. rewrite U. apply M2.
Qed.
Print Assumptions C127_merge.
Theorem C127_sort : forall l, (forall q, In q (l_core l) -> nonempty q) ->
  exists r, list_sort l = (r, Self) /\ l_unit r = l_unit l /\ Permutation (l_core r) (l_core l) /\ ordered_by_begin (l_core r) /\
    forall t, lasts_list r t <-> lasts_list l t.
Proof.
  intros l N. eexists. split; [reflexivity|]. split; [reflexivity|]. cbn [l_core]. destruct (C13_sort _ N) as [A B].
  split; [exact A|]. split; [exact B|]. intro t. unfold lasts_list. cbn [l_core l_unit].
  split; intros (p & P1 & P2); exists p; split; auto; [apply (Permutation_in _ A)|apply (Permutation_in _ (Permutation_sym A))]; exact P1.
Qed.
Print Assumptions C127_sort.
(** Refuted: lists of different units cannot be merged at all; in particular [PeriodList.empty()], which is in
    nanoseconds, cannot receive a list of another unit. *)
Theorem C127_merge_units_refuted : forall l m, l_unit l <> l_unit m -> exists w, list_merge l m = Throw w.
Proof.
  intros l m H. unfold list_merge. destruct (same_unit (l_unit l) (l_unit m)) eqn:E.
  - apply same_unit_iff in E. contradiction.
  - eexists. reflexivity.
Qed.
Print Assumptions C127_merge_units_refuted.
Example C127_merge_ex : let l := PyList kDay [mk_period 0 1; mk_period 8 9] in
  list_merge l (PyList kDay [mk_period 1 4]) = Ok (PyList kDay [mk_period 0 4; mk_period 8 9], Self) /\
  (exists w, list_merge empty_list l = Throw w).
Proof. split; [reflexivity|]. eexists. reflexivity. Qed.

(** The empty list: no period, dates in nanoseconds. *)
Theorem C127_empty : periods_of empty_list = [] /\ l_unit empty_list = kNanosecond /\ forall t, ~ lasts_list empty_list t.
Proof. split; [reflexivity|]. split; [reflexivity|]. intros t (p & I & _). exact I. Qed.
Print Assumptions C127_empty.
(** Refuted: the durations of the list are not those of its periods: the last date of each period is not
    counted (they are in the unit of the list). *)
Theorem C127_durations_refuted : forall l, list_duration l =
  map (fun bl => Delta64 (l_unit l) (d_count (snd bl) - d_count (fst bl))) (periods_of l) /\
  forall i p d, nth_error (l_core l) i = Some p -> nth_error (list_duration l) i = Some d ->
    e_count d = e_count (pp_duration (new_period (Date64 (l_unit l) (p_begin p)) (Date64 (l_unit l) (p_last p)) true)) - 1.
Proof.
  intro l. split.
  - unfold list_duration, py_durations, periods_of. rewrite !map_map. apply map_ext. intro p. reflexivity.
  - intros i p d H D. unfold list_duration, py_durations in D. rewrite map_map, nth_error_map, H in D.
    apply (f_equal (fun o => match o with Some x => e_count x | None => 0 end)) in D. cbn [e_count option_map] in D. rewrite <- D.
    rewrite new_same. cbn. unfold p_duration, p_end. cbn. lia.
Qed.
Print Assumptions C127_durations_refuted.
