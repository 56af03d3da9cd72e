From Verif Require Import Base BaseProofs PeriodModel PeriodSpec.
From Coq Require Import Permutation.
Open Scope Z_scope.

Ltac pb := rewrite ?andb_true_iff, ?orb_true_iff, ?negb_true_iff, ?Z.leb_le, ?Z.ltb_lt, ?Z.geb_le, ?Z.gtb_lt, ?Z.eqb_eq, ?Z.leb_gt, ?Z.ltb_ge in *.

Lemma nonempty_iff p : nonempty p <-> p_begin p <= p_last p.
Proof. unfold nonempty, covers. split; [intros [t H]; lia|intro; exists (p_begin p); lia]. Qed.

Lemma is_null_iff p : p_is_null p = true <-> ~ nonempty p.
Proof. rewrite nonempty_iff. unfold p_is_null, p_end. pb. lia. Qed.
Lemma is_null_false p : p_is_null p = false <-> nonempty p.
Proof. rewrite nonempty_iff. unfold p_is_null, p_end. pb. lia. Qed.

Lemma contains_iff p t : p_contains p t = true <-> covers p t.
Proof. unfold p_contains, covers. pb. lia. Qed.

Lemma contains_period_iff p q : nonempty q ->
  (p_contains_period p q = true <-> forall t, covers q t -> covers p t).
Proof.
  rewrite nonempty_iff. intro H. unfold p_contains_period, covers. pb. split; [lia|].
  intro A. assert (X := A (p_begin q)). assert (Y := A (p_last q)). lia.
Qed.

Lemma is_after_iff p t : nonempty p -> (p_is_after p t = true <-> forall u, covers p u -> t < u).
Proof.
  intro N. unfold p_is_after. rewrite (proj2 (is_null_false p) N). apply nonempty_iff in N.
  unfold covers. pb. split; [lia|]. intro A. apply A. lia.
Qed.
Lemma is_before_iff p t : nonempty p -> (p_is_before p t = true <-> forall u, covers p u -> u < t).
Proof.
  intro N. unfold p_is_before. rewrite (proj2 (is_null_false p) N). apply nonempty_iff in N.
  unfold covers. pb. split; [lia|]. intro A. apply A. lia.
Qed.

Lemma intersects_iff p q : nonempty p -> nonempty q ->
  (p_intersects p q = true <-> exists t, covers p t /\ covers q t).
Proof.
  rewrite !nonempty_iff. intros. unfold p_intersects, p_contains, covers. pb. split.
  - intros [[A|A]|A]; [exists (p_begin q)|exists (p_begin p)|exists (p_begin p)]; lia.
  - intros [t A]. destruct (Z.le_gt_cases (p_begin p) (p_begin q)); lia.
Qed.

Lemma intersection_iff p q t : covers (p_intersection p q) t <-> covers p t /\ covers q t.
Proof.
  unfold p_intersection, covers.
  destruct (Z.gtb_spec (p_begin p) (p_begin q)), (Z.leb_spec (p_last p) (p_last q)); simpl; lia.
Qed.

Lemma merge_iff p q : nonempty p -> nonempty q ->
  (exists t, covers p t /\ covers q t) ->
  forall t, covers (p_merge p q) t <-> covers p t \/ covers q t.
Proof.
  intros Hp Hq Hi. assert (E : p_intersects p q = true) by (apply intersects_iff; auto).
  unfold p_merge. rewrite E. destruct Hi as [u Hu]. unfold covers in *.
  rewrite nonempty_iff in *. intro t.
  destruct (Z.ltb_spec (p_begin p) (p_begin q)), (Z.gtb_spec (p_last p) (p_last q)); simpl; lia.
Qed.

Lemma merge_null p q : nonempty p -> nonempty q ->
  ~ (exists t, covers p t /\ covers q t) -> ~ nonempty (p_merge p q).
Proof.
  intros Hp Hq Hi.
  assert (E : p_intersects p q = false).
  { destruct (p_intersects p q) eqn:E; auto. exfalso. apply Hi. apply intersects_iff; auto. }
  unfold p_merge. rewrite E. rewrite nonempty_iff. unfold period_ctor; simpl. lia.
Qed.

Lemma adjacent_iff p q : nonempty p -> nonempty q ->
  (p_is_adjacent p q = true <->
   (forall t, ~ (covers p t /\ covers q t)) /\
   (forall t, Z.min (p_begin p) (p_begin q) <= t <= Z.max (p_last p) (p_last q) -> covers p t \/ covers q t)).
Proof.
  rewrite !nonempty_iff. intros. unfold p_is_adjacent, p_end, covers. pb. split.
  - intros. split; intros; lia.
  - intros [A B].
    assert (X1 := A (p_begin p)). assert (X2 := A (p_begin q)).
    assert (Y1 := B (p_last p + 1)). assert (Y2 := B (p_last q + 1)). lia.
Qed.

(** ** Chronological lists *)
Lemma precedes_iff p q : nonempty p -> nonempty q -> (precedes p q <-> p_last p < p_begin q).
Proof.
  rewrite !nonempty_iff. intros. unfold precedes, covers. split; [|lia].
  intro A. apply A; lia.
Qed.

Inductive chrono : list period -> Prop :=
| chrono_nil : chrono []
| chrono_cons p l : p_begin p <= p_last p -> (forall q, In q l -> p_last p < p_begin q) -> chrono l -> chrono (p :: l).

Lemma chronological_iff l : chronological l <-> chrono l.
Proof.
  split.
  - induction l as [|p t IH]; intros [H1 H2]; constructor.
    + apply nonempty_iff. apply H1. left; auto.
    + intros q Hq. destruct (in_split _ _ Hq) as (l2 & l3 & ->).
      apply precedes_iff; [apply H1; left; auto|apply H1; right; auto|].
      apply (H2 [] p l2 q l3). reflexivity.
    + apply IH. split. intros; apply H1; right; auto.
      intros l1 a l2 b l3 ->. apply (H2 (p :: l1) a l2 b l3). reflexivity.
  - induction 1 as [|p t Hp Hq Hc [I1 I2]].
    + split; [intros p []|]. intros l1 p l2 q l3 E. destruct l1; discriminate.
    + split.
      * intros q [<-|Hq']; [apply nonempty_iff; auto|auto].
      * intros l1 a l2 b l3 E. destruct l1 as [|c l1].
        -- injection E as -> E. intros x y Hx Hy. unfold covers in *.
           assert (In b t) by (rewrite E; apply in_or_app; right; left; auto). specialize (Hq b H). lia.
        -- injection E as -> E. apply (I2 l1 a l2 b l3 E).
Qed.

Lemma sorted_disjoint_iff l : (forall p, In p l -> nonempty p) ->
  (pl_sorted_disjoint l = true <-> chronological l).
Proof.
  intro N. rewrite chronological_iff. split.
  - induction l as [|p [|q t] IH]; intro H.
    + constructor.
    + constructor; [apply nonempty_iff; apply N; left; auto|intros ? []|constructor].
    + change (pl_sorted_disjoint (p :: q :: t)) with
        (if p_intersects p q || (p_last q <? p_begin p) then false else pl_sorted_disjoint (q :: t)) in H.
      destruct (p_intersects p q) eqn:E1; [discriminate|]. destruct (Z.ltb_spec (p_last q) (p_begin p)) as [|E2]; [discriminate|].
      simpl orb in H. assert (C := IH (fun x Hx => N x (or_intror Hx)) H).
      assert (Np := proj1 (nonempty_iff p) (N p (or_introl eq_refl))).
      assert (Nq := proj1 (nonempty_iff q) (N q (or_intror (or_introl eq_refl)))).
      assert (L : p_last p < p_begin q).
      { unfold p_intersects, p_contains in E1. rewrite !orb_false_iff, !andb_false_iff in E1.
        rewrite !Z.geb_leb, ?Z.leb_gt, ?Z.ltb_ge in E1. lia. }
      constructor; auto. intros r [<-|Hr]; auto. inversion C; subst. specialize (H3 r Hr). lia.
  - induction 1 as [|p t Hp Hq Hc IH]; auto. destruct t as [|q t]; auto.
    change (pl_sorted_disjoint (p :: q :: t)) with
        (if p_intersects p q || (p_last q <? p_begin p) then false else pl_sorted_disjoint (q :: t)).
    specialize (Hq q (or_introl eq_refl)). inversion Hc; subst.
    assert (E : p_intersects p q = false).
    { unfold p_intersects, p_contains. rewrite !orb_false_iff, !andb_false_iff.
      rewrite !Z.geb_leb, ?Z.leb_gt, ?Z.ltb_ge. lia. }
    rewrite E. destruct (Z.ltb_spec (p_last q) (p_begin p)); [lia|]. simpl.
    apply IH. intros x Hx. apply N. right; auto.
Qed.

(** ** Sort *)
Lemma pl_insert_perm p l : Permutation (pl_insert p l) (p :: l).
Proof.
  induction l as [|q t IH]; simpl; auto. destruct (p_begin q <? p_begin p); auto.
  rewrite IH. apply perm_swap.
Qed.
Lemma pl_sort_perm l : Permutation (pl_sort l) l.
Proof. induction l; simpl; auto. rewrite pl_insert_perm. auto. Qed.

Inductive begins_sorted : list period -> Prop :=
| bs_nil : begins_sorted []
| bs_cons p l : (forall q, In q l -> p_begin p <= p_begin q) -> begins_sorted l -> begins_sorted (p :: l).

Lemma pl_insert_sorted p l : begins_sorted l -> begins_sorted (pl_insert p l).
Proof.
  induction 1 as [|q t Hq Hc IH]; simpl.
  - constructor; [intros ? []|constructor].
  - destruct (Z.ltb_spec (p_begin q) (p_begin p)).
    + constructor; auto. intros r Hr. apply (Permutation_in _ (pl_insert_perm p t)) in Hr.
      destruct Hr as [<-|Hr]; [lia|auto].
    + constructor; [|constructor; auto]. intros r [<-|Hr]; auto. specialize (Hq r Hr). lia.
Qed.
Lemma pl_sort_sorted l : begins_sorted (pl_sort l).
Proof. induction l; simpl; [constructor|]. apply pl_insert_sorted; auto. Qed.

Lemma ordered_iff l : ordered_by_begin l <-> (forall p, In p l -> p_begin p <= p_last p) /\ begins_sorted l.
Proof.
  split.
  - intros [H1 H2]. split; [intros; apply nonempty_iff; auto|].
    clear H1. induction l as [|p t IH]; constructor.
    + intros q Hq. destruct (in_split _ _ Hq) as (l2 & l3 & ->). apply (H2 [] p l2 q l3). reflexivity.
    + apply IH. intros l1 a l2 b l3 ->. apply (H2 (p :: l1) a l2 b l3). reflexivity.
  - intros [H1 H2]. split; [intros; apply nonempty_iff; auto|]. clear H1.
    induction H2 as [|p t Hp Hc IH]; intros l1 a l2 b l3 E.
    + destruct l1; discriminate.
    + destruct l1 as [|c l1]; injection E as -> E.
      * apply Hp. rewrite E. apply in_or_app. right; left; auto.
      * apply (IH l1 a l2 b l3 E).
Qed.

(** ** Merging lists *)
(** [rchrono out m]: the reversed output is chronological and its top begins at or
    before [m]. *)
Inductive rchrono : list period -> Prop :=
| rc_nil : rchrono []
| rc_cons p l : p_begin p <= p_last p -> (forall q, In q l -> p_last q < p_begin p) -> rchrono l -> rchrono (p :: l).

Lemma chrono_app l p : chrono l -> p_begin p <= p_last p -> (forall q, In q l -> p_last q < p_begin p) ->
  chrono (l ++ [p]).
Proof.
  induction 1 as [|q t Hq Ht Hc IH]; simpl; intros Hp H.
  - constructor; auto. intros ? []. constructor.
  - constructor; auto. intros r Hr. apply in_app_or in Hr. destruct Hr as [Hr|[<-|[]]]; auto.
Qed.
Lemma rchrono_rev l : rchrono l -> chrono (rev l).
Proof.
  induction 1 as [|p t Hp Ht Hc IH]; simpl; [constructor|]. apply chrono_app; auto.
  intros q Hq. apply Ht. apply in_rev. auto.
Qed.

Lemma insert_or_merge_spec out p :
  rchrono out -> p_begin p <= p_last p -> (forall q, In q out -> p_begin q <= p_begin p) ->
  rchrono (insert_or_merge out p) /\
  (forall t, covered (insert_or_merge out p) t <-> covered out t \/ covers p t) /\
  (forall q, In q (insert_or_merge out p) -> p_begin q <= p_begin p).
Proof.
  intros R Hp Hb. destruct out as [|top rest]; simpl.
  - split; [apply rc_cons; [auto|intros ? []|constructor]|]. split.
    + intro t. unfold covered. split; [intros (q & [<-|[]] & H); auto|].
      intros [(q & [] & _)|H]. exists p. simpl; auto.
    + intros q [<-|[]]. lia.
  - inversion R; subst.
    assert (Nt : nonempty top) by (apply nonempty_iff; auto).
    assert (Np : nonempty p) by (apply nonempty_iff; auto).
    assert (Bt := Hb top (or_introl eq_refl)).
    destruct (Z.le_gt_cases (p_begin p) (p_last top)) as [L|L].
    + assert (I : exists t, covers top t /\ covers p t) by (exists (p_begin p); unfold covers; lia).
      assert (M := merge_iff top p Nt Np I).
      assert (Nm : p_is_null (p_merge top p) = false).
      { apply is_null_false. exists (p_begin p). apply M. right. unfold covers; lia. }
      rewrite Nm. assert (B : p_begin (p_merge top p) = p_begin top).
      { unfold p_merge. rewrite (proj2 (intersects_iff top p Nt Np) I).
        destruct (Z.ltb_spec (p_begin top) (p_begin p)); simpl; lia. }
      assert (N2 := proj1 (is_null_false _) Nm). apply nonempty_iff in N2.
      split; [|split].
      * constructor; auto. rewrite B. auto.
      * intro t. unfold covered. split.
        -- intros (q & [<-|Hq] & H); [apply M in H; destruct H; [left; exists top; simpl; auto|right; auto]|].
           left. exists q. simpl; auto.
        -- intros [(q & [<-|Hq] & H)|H].
           ++ exists (p_merge top p). split; [left; auto|]. apply M; auto.
           ++ exists q. simpl; auto.
           ++ exists (p_merge top p). split; [left; auto|]. apply M; auto.
      * intros q [<-|Hq]; [lia|]. apply Hb. right; auto.
    + assert (I : ~ exists t, covers top t /\ covers p t) by (intros (t & A & B); unfold covers in *; lia).
      assert (Nm : p_is_null (p_merge top p) = true) by (apply is_null_iff; apply merge_null; auto).
      rewrite Nm. split; [|split].
      * constructor; auto. intros q [<-|Hq]; [lia|]. specialize (H2 q Hq). lia.
      * intro t. unfold covered. split.
        -- intros (q & [<-|Hq] & H); auto. left. exists q. auto.
        -- intros [(q & Hq & H)|H]; [exists q; simpl; auto; split; auto; right; auto|exists p; simpl; auto].
      * intros q [<-|Hq]; [lia|]. apply Hb. auto.
Qed.

Lemma pl_merge_loop_spec fuel : forall a b out,
  (length a + length b <= fuel)%nat ->
  (forall p, In p a \/ In p b -> p_begin p <= p_last p) ->
  begins_sorted a -> begins_sorted b -> rchrono out ->
  (forall q p, In q out -> In p a \/ In p b -> p_begin q <= p_begin p) ->
  rchrono (pl_merge_loop fuel a b out) /\
  forall t, covered (pl_merge_loop fuel a b out) t <-> covered out t \/ covered a t \/ covered b t.
Proof.
  assert (CN : forall t, ~ covered [] t) by (intros t (p & [] & _)).
  assert (CC : forall p l t, covered (p :: l) t <-> covers p t \/ covered l t).
  { intros p l t. unfold covered. split.
    - intros (q & [<-|Hq] & H); auto. right. exists q; auto.
    - intros [H|(q & Hq & H)]; [exists p|exists q]; simpl; auto. }
  induction fuel as [|n IH]; intros a b out Hf Hn Sa Sb R Hb.
  - destruct a; destruct b; simpl in Hf; try lia. simpl. split; auto. intro t.
    specialize (CN t). tauto.
  - assert (STEP : forall p a' b', (length a' + length b' <= n)%nat ->
       p_begin p <= p_last p -> (forall x, In x a' \/ In x b' -> p_begin x <= p_last x) ->
       begins_sorted a' -> begins_sorted b' ->
       (forall q, In q out -> p_begin q <= p_begin p) ->
       (forall x, In x a' \/ In x b' -> p_begin p <= p_begin x) ->
       rchrono (pl_merge_loop n a' b' (insert_or_merge out p)) /\
       (forall t, covered (pl_merge_loop n a' b' (insert_or_merge out p)) t <->
          (covered out t \/ covers p t) \/ covered a' t \/ covered b' t)).
    { intros p a' b' H1 H2 H3 H4 H5 H6 H7.
      destruct (insert_or_merge_spec out p R H2 H6) as (I1 & I2 & I3).
      destruct (IH a' b' (insert_or_merge out p) H1 H3 H4 H5 I1) as [J1 J2].
      { intros q x Hq Hx. specialize (I3 q Hq). specialize (H7 x Hx). lia. }
      split; auto. intro t. rewrite J2, I2. tauto. }
    destruct a as [|p a], b as [|q b]; cbn [pl_merge_loop].
    + split; auto. intro t. specialize (CN t). tauto.
    + inversion Sb; subst.
      destruct (STEP q [] b) as [J1 J2]; auto; simpl in *; try lia; intros; try (apply Hn; tauto); try (apply Hb; tauto).
      { destruct H as [[]|H]; auto. }
      split; auto. intro t. rewrite J2, CC. specialize (CN t). tauto.
    + inversion Sa; subst.
      destruct (STEP p a []) as [J1 J2]; auto; simpl in *; try lia; intros; try (apply Hn; tauto); try (apply Hb; tauto).
      { destruct H as [H|[]]; auto. }
      split; auto. intro t. rewrite J2, CC. specialize (CN t). tauto.
    + inversion Sa; subst. inversion Sb; subst.
      assert (Nq : p_begin q <= p_last q) by (apply Hn; simpl; auto).
      assert (AF : p_is_after q (p_begin p) = (p_begin p <? p_begin q)).
      { unfold p_is_after. rewrite (proj2 (is_null_false q)); auto. apply nonempty_iff; auto. }
      rewrite AF. destruct (Z.ltb_spec (p_begin p) (p_begin q)) as [L|L].
      * destruct (STEP p a (q :: b)) as [J1 J2]; auto; try (simpl in *; lia).
        -- apply Hn; simpl; auto.
        -- intros x Hx. apply Hn. simpl in *. tauto.
        -- intros x Hx. apply Hb; simpl; auto.
        -- intros x [Hx|[<-|Hx]]; auto; try lia. specialize (H3 x Hx). lia.
        -- split; auto. intro t. rewrite J2, !CC. tauto.
      * destruct (STEP q (p :: a) b) as [J1 J2]; auto; try (simpl in *; lia).
        -- intros x Hx. apply Hn. simpl in *. tauto.
        -- intros x Hx. apply Hb; simpl; auto.
        -- intros x [[<-|Hx]|Hx]; auto; try lia. specialize (H1 x Hx). lia.
        -- split; auto. intro t. rewrite J2, !CC. tauto.
Qed.

Lemma covered_rev l t : covered (rev l) t <-> covered l t.
Proof. unfold covered. split; intros (p & H & C); exists p; split; auto; apply in_rev; auto. rewrite rev_involutive; auto. Qed.

Lemma pl_merge_spec a b : ordered_by_begin a -> ordered_by_begin b ->
  chronological (pl_merge a b) /\ forall t, covered (pl_merge a b) t <-> covered a t \/ covered b t.
Proof.
  rewrite !ordered_iff. intros [A1 A2] [B1 B2]. unfold pl_merge.
  destruct (pl_merge_loop_spec (length a + length b) a b []) as [J1 J2]; auto.
  { intros p [H|H]; auto. } { constructor. } { intros q p []. }
  split. { apply chronological_iff. apply rchrono_rev. auto. }
  intro t. rewrite covered_rev, J2. split; [intros [(p & [] & _)|H]; auto|auto].
Qed.

(** ** belong_to_a_period *)
Lemma sorted_dates_cons d t : sorted_dates (d :: t) -> sorted_dates t /\ forall x, In x t -> d <= x.
Proof.
  intro H. split.
  - intros l1 a l2 b l3 ->. apply (H (d :: l1) a l2 b l3). reflexivity.
  - intros x Hx. destruct (in_split _ _ Hx) as (l2 & l3 & ->). apply (H [] d l2 x l3). reflexivity.
Qed.

Lemma advance_spec it d : chrono it ->
  match pl_advance it d with
  | None => forall p, In p it -> p_last p < d
  | Some it' => exists pre p rest, it = pre ++ it' /\ it' = p :: rest /\ d <= p_last p /\
        (forall q, In q pre -> p_last q < d)
  end.
Proof.
  induction 1 as [|p t Hp Ht Hc IH]; simpl.
  - intros p [].
  - assert (E : negb (p_contains p d) && negb (p_is_after p d) = (p_last p <? d)).
    { unfold p_contains, p_is_after. rewrite (proj2 (is_null_false p)) by (apply nonempty_iff; auto).
      destruct (Z.geb_spec d (p_begin p)), (Z.leb_spec d (p_last p)), (Z.ltb_spec d (p_begin p)), (Z.ltb_spec (p_last p) d); simpl; auto; lia. }
    rewrite E. destruct (Z.ltb_spec (p_last p) d).
    + destruct (pl_advance t d) as [it'|].
      * destruct IH as (pre & q & rest & -> & -> & L & Hpre).
        exists (p :: pre), q, rest. repeat split; auto. intros x [<-|Hx]; auto.
      * intros q [<-|Hq]; auto.
    + exists [], p, t. repeat split; auto. intros q [].
Qed.

Lemma chrono_app_inv l1 l2 : chrono (l1 ++ l2) -> chrono l2.
Proof. induction l1; simpl; auto. intro H. inversion H; auto. Qed.

(** The loop is right for the dates that precede the end of some remaining
    period; otherwise it dereferences [end()]. *)
Lemma belong_loop_spec all it dates :
  (exists pre, all = pre ++ it /\ forall q d, In q pre -> In d dates -> p_last q < d) ->
  chrono all -> sorted_dates dates ->
  match pl_belong_loop it dates with
  | Ok flags => flags_exactly (covered all) dates flags /\
      (forall d, In d dates -> exists p, In p all /\ d <= p_last p)
  | UB _ => exists d, In d dates /\ forall p, In p all -> p_last p < d
  | Throw _ => False
  end.
Proof.
  intros (pre & E & Hpre) Hc. revert pre it E Hpre.
  induction dates as [|d t IH]; intros pre it E Hpre Hs; simpl.
  - split; [constructor|intros d []].
  - assert (Ci : chrono it) by (subst all; eapply chrono_app_inv; eauto).
    assert (A := advance_spec it d Ci). destruct (pl_advance it d) as [it'|].
    + destruct A as (pre2 & p & rest & Ei & -> & Ld & Hp2).
      destruct (sorted_dates_cons _ _ Hs) as [Hs' Hd].
      specialize (IH (pre ++ pre2) (p :: rest)).
      assert (IH' := IH ltac:(subst; rewrite <- app_assoc; reflexivity)). clear IH.
      assert (HH : forall q d0, In q (pre ++ pre2) -> In d0 t -> p_last q < d0).
      { intros q x Hq Hx. apply in_app_or in Hq. destruct Hq as [Hq|Hq].
        - apply Hpre; simpl; auto. - specialize (Hp2 q Hq). specialize (Hd x Hx). lia. }
      specialize (IH' HH Hs').
      destruct (pl_belong_loop (p :: rest) t) as [r| |]; cbn [obind]; auto.
      * destruct IH' as [F1 F2]. split.
        -- constructor; auto. rewrite contains_iff. split.
           ++ intro C. exists p. split; auto. subst. apply in_or_app. right. apply in_or_app. right. left; auto.
           ++ intros (q & Hq & C). subst all. apply in_app_or in Hq. destruct Hq as [Hq|Hq].
              { specialize (Hpre q d Hq (or_introl eq_refl)). unfold covers in C. lia. }
              subst it. apply in_app_or in Hq. destruct Hq as [Hq|[<-|Hq]]; auto.
              { specialize (Hp2 q Hq). unfold covers in C. lia. }
              apply chrono_app_inv in Ci. inversion Ci; subst. specialize (H2 q Hq). unfold covers in *. lia.
        -- intros x [<-|Hx]; auto. exists p. split; auto. subst. apply in_or_app. right. apply in_or_app. right. left; auto.
      * destruct IH' as (x & Hx & H). exists x. simpl; auto.
    + exists d. split; [left; auto|]. intros p Hp. subst all. apply in_app_or in Hp. destruct Hp as [Hp|Hp]; auto.
      apply Hpre; simpl; auto.
Qed.
