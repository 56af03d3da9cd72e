(** Theorems about time periods and lists of periods (properties C12 to C18). *)
From Verif Require Import Base BaseProofs PeriodModel PeriodSpec PeriodProofs PeriodProofs2.
From Coq Require Import Permutation.
Open Scope Z_scope.

(** * C12 period set algebra *)
(** The constructor: [within] closes the interval on the right. *)
Theorem C12_constructor : forall b e t,
  (covers (period_ctor b e true) t <-> b <= t <= e) /\
  (covers (period_ctor b e false) t <-> b <= t < e).
Proof. intros. unfold covers, period_ctor; simpl. lia. Qed.
Print Assumptions C12_constructor.

(** The sizes: duration and length count the instants of a non-empty period, and
    is_null recognises exactly the periods without instants. *)
Theorem C12_duration : forall p,
  (nonempty p -> p_duration p = Z.of_nat (length (List.map (fun i => p_begin p + Z.of_nat i) (seq 0 (Z.to_nat (p_last p - p_begin p + 1)))))
     /\ (forall t, covers p t <-> In t (List.map (fun i => p_begin p + Z.of_nat i) (seq 0 (Z.to_nat (p_last p - p_begin p + 1))))))
  /\ p_length p = p_duration p
  /\ (p_is_null p = true <-> ~ nonempty p)
  /\ (p_is_null p = true <-> p_duration p <= 0).
Proof.
  intro p. split; [|split; [|split]].
  - intro N. apply nonempty_iff in N. rewrite map_length, seq_length. unfold p_duration, p_end. split; [lia|].
    intro t. rewrite in_map_iff. unfold covers. split.
    + intro H. exists (Z.to_nat (t - p_begin p)). split; [lia|]. apply in_seq. lia.
    + intros (i & <- & Hi). apply in_seq in Hi. lia.
  - unfold p_length, p_duration, p_end. destruct (p_last p <? p_begin p); lia.
  - apply is_null_iff.
  - unfold p_is_null, p_duration. rewrite Z.leb_le. lia.
Qed.
Print Assumptions C12_duration.

(** Membership and inclusion. *)
Theorem C12_contains : forall p q t,
  (p_contains p t = true <-> covers p t) /\
  (nonempty q -> (p_contains_period p q = true <-> forall u, covers q u -> covers p u)).
Proof. intros. split; [apply contains_iff|]. intros. apply contains_period_iff; auto. Qed.
Print Assumptions C12_contains.

(** Order: before/after a date, and the comparison of two periods. *)
Theorem C12_order : forall p q t, nonempty p -> nonempty q ->
  (p_is_after p t = true <-> forall u, covers p u -> t < u) /\
  (p_is_before p t = true <-> forall u, covers p u -> u < t) /\
  (p_ltb p q = true <-> forall t u, covers p t -> covers q u -> t < u) /\
  (p_eqb p q = true <-> forall t, covers p t <-> covers q t).
Proof.
  intros p q t Np Nq. split; [apply is_after_iff; auto|]. split; [apply is_before_iff; auto|].
  assert (Mp := proj1 (nonempty_iff p) Np). assert (Mq := proj1 (nonempty_iff q) Nq). split.
  - unfold p_ltb. rewrite Z.ltb_lt. rewrite <- precedes_iff by auto. reflexivity.
  - unfold p_eqb, covers. rewrite andb_true_iff, !Z.eqb_eq. split; [intros [-> ->]; tauto|].
    intro H. assert (A := H (p_begin p)). assert (B := H (p_last p)). assert (C := H (p_begin q)).
    assert (D := H (p_last q)). lia.
Qed.
Print Assumptions C12_order.

(** A null period is neither before nor after any date. *)
Theorem C12_null_order : forall p t, ~ nonempty p -> p_is_after p t = false /\ p_is_before p t = false.
Proof. intros p t N. apply is_null_iff in N. unfold p_is_after, p_is_before. rewrite N. auto. Qed.
Print Assumptions C12_null_order.

(** intersects and intersection are set intersection. *)
Theorem C12_intersection : forall p q t,
  (nonempty p -> nonempty q -> (p_intersects p q = true <-> exists u, covers p u /\ covers q u)) /\
  (covers (p_intersection p q) t <-> covers p t /\ covers q t).
Proof. intros. split; [intros; apply intersects_iff; auto|apply intersection_iff]. Qed.
Print Assumptions C12_intersection.

(** intersects is symmetric, and so is merge up to the instants covered. *)
Theorem C12_symmetric : forall p q, nonempty p -> nonempty q ->
  p_intersects p q = p_intersects q p /\ p_is_adjacent p q = p_is_adjacent q p /\
  forall t, covers (p_merge p q) t <-> covers (p_merge q p) t.
Proof.
  intros p q Np Nq.
  assert (S : p_intersects p q = p_intersects q p).
  { apply Bool.eq_iff_eq_true. rewrite !intersects_iff by auto. split; intros (t & A & B); exists t; auto. }
  split; auto. split; [unfold p_is_adjacent; apply orb_comm|]. intro t.
  destruct (p_intersects p q) eqn:E.
  - apply intersects_iff in E; auto. rewrite (merge_iff p q Np Nq E).
    rewrite (merge_iff q p Nq Np); [tauto|]. destruct E as (u & A & B). exists u; auto.
  - assert (~ exists u, covers p u /\ covers q u) as NE by (rewrite <- intersects_iff by auto; congruence).
    assert (~ exists u, covers q u /\ covers p u) as NE' by (intros (u & A & B); apply NE; exists u; auto).
    assert (A := merge_null p q Np Nq NE). assert (B := merge_null q p Nq Np NE').
    split; intro H; exfalso; [apply A|apply B]; exists t; auto.
Qed.
Print Assumptions C12_symmetric.

(** merge: the union when the periods share an instant; otherwise (even when they
    abut) a null period. *)
Theorem C12_merge : forall p q, nonempty p -> nonempty q ->
  ((exists u, covers p u /\ covers q u) -> forall t, covers (p_merge p q) t <-> covers p t \/ covers q t) /\
  (~ (exists u, covers p u /\ covers q u) -> ~ nonempty (p_merge p q)).
Proof. intros. split; [apply merge_iff; auto|apply merge_null; auto]. Qed.
Print Assumptions C12_merge.

(** is_adjacent: disjoint, and no hole between the two. *)
Theorem C12_adjacent : forall p q, nonempty p -> nonempty q ->
  (p_is_adjacent p q = true <->
   (forall t, ~ (covers p t /\ covers q t)) /\
   (forall t, Z.min (p_begin p) (p_begin q) <= t <= Z.max (p_last p) (p_last q) -> covers p t \/ covers q t)).
Proof. apply adjacent_iff. Qed.
Print Assumptions C12_adjacent.

Example C12_ex : nonempty (mk_period 0 10) /\ nonempty (mk_period 5 20) /\
  p_merge (mk_period 0 10) (mk_period 5 20) = mk_period 0 20 /\
  p_is_null (p_merge (mk_period 0 10) (mk_period 11 20)) = true.
Proof. split; [exists 3; unfold covers; simpl; lia|]. split; [exists 6; unfold covers; simpl; lia|]. split; reflexivity. Qed.

(** intersects on a null period: a period without instants intersects another. *)
Theorem C12_null_intersects_refuted :
  ~ nonempty (period_ctor 5 5 false) /\ p_intersects (mk_period 0 10) (period_ctor 5 5 false) = true.
Proof. split; [|reflexivity]. intros (t & H). unfold covers in H. simpl in H. lia. Qed.
Print Assumptions C12_null_intersects_refuted.

(** * C13 lists *)
(** are_periods_sorted_and_disjointed recognises the chronological disjoint lists. *)
Theorem C13_sorted_disjoint : forall l, (forall p, In p l -> nonempty p) ->
  (pl_sorted_disjoint l = true <-> chronological l).
Proof. apply sorted_disjoint_iff. Qed.
Print Assumptions C13_sorted_disjoint.

(** sort: a rearrangement ordered by beginning. *)
Theorem C13_sort : forall l, (forall p, In p l -> nonempty p) ->
  Permutation (pl_sort l) l /\ ordered_by_begin (pl_sort l).
Proof.
  intros l N. split; [apply pl_sort_perm|]. apply ordered_iff. split; [|apply pl_sort_sorted].
  intros p Hp. apply nonempty_iff. apply N. apply (Permutation_in _ (pl_sort_perm l)). auto.
Qed.
Print Assumptions C13_sort.

(** merge of two lists ordered by beginning (in particular chronological ones):
    chronological, covering exactly the union. *)
Theorem C13_merge : forall a b, ordered_by_begin a -> ordered_by_begin b ->
  chronological (pl_merge a b) /\ forall t, covered (pl_merge a b) t <-> covered a t \/ covered b t.
Proof. apply pl_merge_spec. Qed.
Print Assumptions C13_merge.

Theorem C13_chronological_ordered : forall l, chronological l -> ordered_by_begin l.
Proof.
  intros l [H1 H2]. split; auto. intros l1 p l2 q l3 E. specialize (H2 _ _ _ _ _ E).
  assert (Np : nonempty p) by (apply H1; subst; apply in_mid; auto).
  assert (Nq : nonempty q) by (apply H1; subst; apply in_mid; right; right; apply in_mid; auto).
  apply precedes_iff in H2; auto. apply nonempty_iff in Np. lia.
Qed.
Print Assumptions C13_chronological_ordered.

Example C13_ex : pl_merge [mk_period 0 4; mk_period 10 12] [mk_period 3 11; mk_period 20 21]
  = [mk_period 0 12; mk_period 20 21].
Proof. reflexivity. Qed.
Example C13_ex_hyp : chronological [mk_period 0 4; mk_period 10 12].
Proof.
  apply chronological_iff. constructor; simpl; [lia| |].
  - intros q [<-|[]]. simpl. lia.
  - constructor; simpl; [lia|intros q []|constructor].
Qed.

(** * C14 belong_to_a_period *)
(** Exactly the membership flags when every date is at or before the end of some
    period; otherwise the code reads past the end of the list. *)
Theorem C14_belong : forall periods dates, chronological periods -> sorted_dates dates ->
  (forall d, In d dates -> exists p, In p periods /\ d <= p_last p) ->
  exists flags, pl_belong periods dates = Ok flags /\ flags_exactly (covered periods) dates flags.
Proof.
  intros P D HP HD HB. apply chronological_iff in HP.
  assert (X := belong_loop_spec P P D). unfold pl_belong.
  specialize (X ltac:(exists []; split; [reflexivity|intros q d []]) HP HD).
  destruct (pl_belong_loop P D) as [f|w|w].
  - exists f. tauto.
  - destruct X.
  - destruct X as (d & Hd & X). destruct (HB d Hd) as (p & Hp & L). specialize (X p Hp). lia.
Qed.
Print Assumptions C14_belong.

(** The read past the end happens exactly for a date after all periods. *)
Theorem C14_belong_past_end_refuted : forall periods dates, chronological periods -> sorted_dates dates ->
  ((exists w, pl_belong periods dates = UB w) <->
   exists d, In d dates /\ forall p, In p periods -> p_last p < d).
Proof.
  intros P D HP HD. apply chronological_iff in HP.
  assert (X := belong_loop_spec P P D). unfold pl_belong.
  specialize (X ltac:(exists []; split; [reflexivity|intros q d []]) HP HD).
  destruct (pl_belong_loop P D) as [f|w|w].
  - split; [intros [w W]; discriminate|]. intros (d & Hd & Y). destruct X as [_ X].
    destruct (X d Hd) as (p & Hp & L). specialize (Y p Hp). lia.
  - destruct X.
  - split; eauto.
Qed.
Print Assumptions C14_belong_past_end_refuted.
Example C14_ex : pl_belong [mk_period 2 4; mk_period 8 9] [1; 3; 4; 5; 9] = Ok [false; true; true; false; true]
  /\ pl_belong [mk_period 2 4] [5] = UB "dereference of end()" /\ pl_belong [] [5] = UB "dereference of end()".
Proof. repeat split; reflexivity. Qed.

(** * C15 cross_a_period *)
(** A date is flagged exactly when some instant of a period lies between it and
    the last date. *)
Theorem C15_cross : forall periods dates last_date,
  chronological periods -> sorted_dates dates -> last (map Some dates) None = Some last_date ->
  exists flags, pl_cross periods dates = Ok flags /\
    flags_exactly (fun d => exists t, covered periods t /\ d <= t <= last_date) dates flags.
Proof. apply cross_spec. Qed.
Print Assumptions C15_cross.

Theorem C15_empty_dates_refuted : forall periods, exists w, pl_cross periods [] = UB w.
Proof. intro. eexists. apply cross_empty. Qed.
Print Assumptions C15_empty_dates_refuted.
Example C15_ex : pl_cross [mk_period 2 4; mk_period 8 9; mk_period 20 30] [1; 3; 5; 9; 10; 12]
  = Ok [true; true; true; true; false; false].
Proof. reflexivity. Qed.

(** * C16 join_adjacent_periods *)
Theorem C16_join : forall l eps, chronological l ->
  chronological (pl_join l eps) /\
  (forall l1 p q l2, pl_join l eps = l1 ++ p :: q :: l2 -> p_begin q - p_last p > eps) /\
  (forall t, covered (pl_join l eps) t <->
     covered l t \/
     exists l1 p q l2, l = l1 ++ p :: q :: l2 /\ p_begin q - p_last p <= eps /\ p_last p < t < p_begin q).
Proof. apply join_spec. Qed.
Print Assumptions C16_join.
Example C16_ex : pl_join [mk_period 0 4; mk_period 5 6; mk_period 9 10] 1 = [mk_period 0 6; mk_period 9 10].
Proof. reflexivity. Qed.

(** On a list that is merely sorted, a nested period makes the code lose instants. *)
Theorem C16_nested_refuted : exists l eps t, ordered_by_begin l /\ covered l t /\ ~ covered (pl_join l eps) t.
Proof.
  exists [mk_period 0 100; mk_period 10 20], 0, 50. split; [|split].
  - apply ordered_iff. split.
    + intros p [<-|[<-|[]]]; simpl; lia.
    + constructor; [|constructor; [intros ? []|constructor]]. intros q [<-|[]]. simpl. lia.
  - exists (mk_period 0 100). split; [left; auto|]. unfold covers; simpl; lia.
  - intros (p & [<-|[]] & H). unfold covers in H; simpl in H. lia.
Qed.
Print Assumptions C16_nested_refuted.

(** * C17 filter, within, intersection *)
Theorem C17_filter : forall l d p,
  pl_filter l d = List.filter (fun q => p_duration q >=? d) l /\
  (In p (pl_filter l d) <-> In p l /\ d <= p_last p - p_begin p + 1).
Proof.
  intros. rewrite filter_eq. split; auto. rewrite filter_In. unfold p_duration, p_end. rewrite Z.geb_le.
  split; intros [A B]; split; auto; lia.
Qed.
Print Assumptions C17_filter.
Theorem C17_within : forall l p q, nonempty p -> (forall x, In x l -> nonempty x) ->
  pl_within l p = List.filter (fun x => p_intersects p x) l /\
  (In q (pl_within l p) <-> In q l /\ exists t, covers p t /\ covers q t).
Proof.
  intros l p q Np N. rewrite within_eq. split; auto. rewrite filter_In. split; intros [A B]; split; auto.
  - apply intersects_iff in B; auto.
  - apply intersects_iff; auto.
Qed.
Print Assumptions C17_within.
Theorem C17_intersection : forall l p,
  (forall t, covered (pl_intersection l p) t <-> covered l t /\ covers p t) /\
  (forall q, In q (pl_intersection l p) -> nonempty q) /\
  (chronological l -> chronological (pl_intersection l p)).
Proof.
  intros. split; [|split].
  - intro. apply list_intersection_spec.
  - intro. apply list_intersection_nonempty.
  - apply list_intersection_chrono.
Qed.
Print Assumptions C17_intersection.
Example C17_ex : pl_intersection [mk_period 0 4; mk_period 10 12; mk_period 20 22] (mk_period 3 20)
  = [mk_period 3 4; mk_period 10 12; mk_period 20 20].
Proof. reflexivity. Qed.

(** filter does not use the durations the Python list reports: a period of
    reported duration 4 passes filter(5). *)
Theorem C17_filter_duration_refuted :
  py_durations [mk_period 0 4] = [4] /\ pl_filter [mk_period 0 4] 5 = [mk_period 0 4].
Proof. split; reflexivity. Qed.
Print Assumptions C17_filter_duration_refuted.
(** "Within" keeps periods that merely overlap. *)
Theorem C17_within_is_overlap_refuted :
  pl_within [mk_period 0 10] (mk_period 5 7) = [mk_period 0 10] /\
  p_contains_period (mk_period 5 7) (mk_period 0 10) = false.
Proof. split; reflexivity. Qed.
Print Assumptions C17_within_is_overlap_refuted.

(** * C18 is_close *)
Theorem C18_is_close : forall p d eps, nonempty p -> 0 <= eps ->
  (p_is_close p d eps = true <-> exists t, covers p t /\ Z.abs (d - t) <= eps).
Proof. apply is_close_iff. Qed.
Print Assumptions C18_is_close.
Theorem C18_list_is_close : forall l d eps, (forall p, In p l -> nonempty p) -> 0 <= eps ->
  (pl_is_close l d eps = true <-> exists t, covered l t /\ Z.abs (d - t) <= eps).
Proof. apply list_is_close_iff. Qed.
Print Assumptions C18_list_is_close.
Example C18_ex : pl_is_close [mk_period 0 4; mk_period 10 12] 7 3 = true /\ pl_is_close [mk_period 0 4; mk_period 10 12] 7 2 = false.
Proof. split; reflexivity. Qed.
