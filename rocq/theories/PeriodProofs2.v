From Verif Require Import Base BaseProofs PeriodModel PeriodSpec PeriodProofs.
Open Scope Z_scope.

(** ** cross_a_period *)
Lemma lookup_from_spec l d : chrono l -> forall index, 0 <= index ->
  (pl_lookup_from l index d = -1 /\ forall p, In p l -> p_last p < d) \/
  exists pre p rest, l = pre ++ p :: rest /\ pl_lookup_from l index d = index + zlen pre /\
     d <= p_last p /\ forall q, In q pre -> p_last q < d.
Proof.
  induction 1 as [|p t Hp Ht Hc IH]; intros index Hi; cbn [pl_lookup_from].
  - left. split; auto. intros p [].
  - assert (E : p_contains p d || p_is_after p d = (d <=? p_last p)).
    { unfold p_contains, p_is_after. rewrite (proj2 (is_null_false p)) by (apply nonempty_iff; auto).
      destruct (Z.geb_spec d (p_begin p)), (Z.leb_spec d (p_last p)), (Z.ltb_spec d (p_begin p)); simpl; auto; lia. }
    rewrite E. destruct (Z.leb_spec d (p_last p)).
    + right. exists [], p, t. unfold zlen; simpl. repeat split; auto; try lia; try tauto.
    + destruct (IH (index + 1)) as [[I1 I2]|(pre & q & rest & -> & I1 & I2 & I3)]; [lia| |].
      * left. split; auto. intros q [<-|Hq]; auto.
      * right. exists (p :: pre), q, rest. repeat split; auto.
        -- rewrite I1. unfold zlen. simpl length. lia.
        -- intros r [<-|Hr]; auto.
Qed.

Lemma skipn_len {A} (a b : list A) : skipn (Z.to_nat (zlen a)) (a ++ b) = b.
Proof. unfold zlen. rewrite Nat2Z.id. rewrite skipn_app, skipn_all, Nat.sub_diag. reflexivity. Qed.

Lemma znth_mid {A} (a b : list A) x : znth (a ++ x :: b) (zlen a) = Some x.
Proof.
  unfold znth, zlen. destruct (Z.ltb_spec (Z.of_nat (length a)) 0); [lia|].
  rewrite Nat2Z.id, nth_error_app2, Nat.sub_diag by lia. reflexivity.
Qed.

Lemma chrono_mid pre p rest : chrono (pre ++ p :: rest) ->
  p_begin p <= p_last p /\ (forall q, In q rest -> p_last p < p_begin q).
Proof. intro H. apply chrono_app_inv in H. inversion H; auto. Qed.

Lemma app_same_index {A} (a : list A) : forall b c d x y, a ++ x :: b = c ++ y :: d -> length a = length c -> a = c /\ x = y /\ b = d.
Proof.
  induction a as [|h t IH]; intros b [|k c] d x y E L; try discriminate.
  - injection E as -> ->. auto.
  - injection E as -> E. destruct (IH b c d x y E) as (-> & -> & ->); auto.
Qed.
Lemma app_lt_index {A} (a : list A) : forall b c d x y, a ++ x :: b = c ++ y :: d -> (length a < length c)%nat -> In x c.
Proof.
  induction a as [|h t IH]; intros b [|k c] d x y E L; simpl in L; try lia.
  - injection E as -> E. left; auto.
  - injection E as -> E. right. apply (IH b c d x y E). lia.
Qed.
Lemma in_mid {A} (a b : list A) x y : In y (a ++ x :: b) <-> In y a \/ y = x \/ In y b.
Proof. rewrite in_app_iff. simpl. intuition congruence. Qed.

Lemma cross_loop_spec periods L last_index : chrono periods ->
  (last_index = -1 /\ (forall p, In p periods -> p_last p < L) \/
   exists preL pL restL, periods = preL ++ pL :: restL /\ last_index = zlen preL /\
     L < p_begin pL /\ forall q, In q preL -> p_last q < L) ->
  forall dates pre it, periods = pre ++ it -> sorted_dates dates ->
  (forall d, In d dates -> d <= L) ->
  (forall q d, In q pre -> In d dates -> p_last q < d) ->
  flags_exactly (fun d => exists t, covered periods t /\ d <= t <= L) dates
    (pl_cross_loop periods dates (zlen pre) last_index).
Proof.
  intros Hc HL. induction dates as [|d t IH]; intros pre it E Hs Hle Hpre; [constructor|].
  destruct (sorted_dates_cons _ _ Hs) as [Hs' Hd].
  assert (NONE : forall P : Z -> Prop, (forall x, In x (d :: t) -> ~ P x) ->
     flags_exactly P (d :: t) (map (fun _ => false) (d :: t))).
  { intros P. generalize (d :: t). induction l as [|x l IHl]; simpl; intro H; constructor.
    - split; [discriminate|]. intro HP. exfalso. apply (H x); auto.
    - apply IHl. intros y Hy. apply H. auto. }
  assert (Hdle : forall x, In x (d :: t) -> d <= x) by (intros x [<-|Hx]; [lia|auto]).
  assert (Ci : chrono it) by (subst periods; eapply chrono_app_inv; eauto).
  cbn [pl_cross_loop]. unfold pl_lookup. 
  assert (SK : skipn (Z.to_nat (zlen pre)) periods = it) by (rewrite E; apply skipn_len).
  rewrite !SK.
  destruct (lookup_from_spec it d Ci (zlen pre)) as [[I1 I2]|(pre2 & p & rest & Ei & I1 & I2 & I3)];
    [unfold zlen; lia| |].
  - rewrite I1. cbv zeta. simpl (-1 =? -1). cbn [orb]. apply NONE.
    intros x Hx (u & (q & Hq & Cq) & Hu). unfold covers in Cq. rewrite E in Hq. apply in_app_or in Hq.
    specialize (Hdle x Hx). destruct Hq as [Hq|Hq].
    + specialize (Hpre q d Hq (or_introl eq_refl)). lia.
    + specialize (I2 q Hq). lia.
  - assert (EA : periods = (pre ++ pre2) ++ p :: rest) by (rewrite E, Ei, app_assoc; reflexivity).
    assert (LA : zlen pre + zlen pre2 = zlen (pre ++ pre2)) by (unfold zlen; rewrite app_length; lia).
    assert (Hbefore : forall q, In q (pre ++ pre2) -> p_last q < d).
    { intros q Hq. apply in_app_or in Hq. destruct Hq; auto. apply Hpre; simpl; auto. }
    rewrite I1, LA. cbv zeta.
    assert (zlen (pre ++ pre2) =? -1 = false) as -> by (apply Z.eqb_neq; unfold zlen; lia).
    cbn [orb]. destruct (Z.eqb_spec (zlen (pre ++ pre2)) last_index) as [EL|EL].
    + destruct HL as [[-> _]|(preL & pL & restL & EP & -> & HL1 & HL2)]; [unfold zlen in EL; lia|].
      rewrite EA in EP. destruct (app_same_index _ _ _ _ _ _ EP) as (_ & -> & _); [unfold zlen in EL; lia|].
      apply NONE. intros x Hx (u & (q & Hq & Cq) & Hu). unfold covers in Cq.
      specialize (Hdle x Hx). rewrite EA in Hq. apply in_mid in Hq.
      rewrite EA in Hc. destruct (chrono_mid _ _ _ Hc) as [M1 M2].
      destruct Hq as [Hq|[->|Hq]]; [specialize (Hbefore q Hq); lia|lia|]. specialize (M2 q Hq). lia.
    + constructor.
      * rewrite EA at 1. rewrite znth_mid.
        assert (Hc2 := Hc). rewrite EA in Hc2. destruct (chrono_mid _ _ _ Hc2) as [M1 M2].
        assert (EF : p_contains p d || p_is_after p d = true).
        { unfold p_contains, p_is_after. rewrite (proj2 (is_null_false p)) by (apply nonempty_iff; auto).
          destruct (Z.geb_spec d (p_begin p)), (Z.leb_spec d (p_last p)), (Z.ltb_spec d (p_begin p)); simpl; auto; lia. }
        rewrite EF. split; auto. intros _. exists (p_last p). split.
        -- exists p. split; [rewrite EA; apply in_mid; auto|unfold covers; lia].
        -- split; auto. destruct HL as [[_ HL]|(preL & pL & restL & EP & -> & HL1 & HL2)].
           ++ assert (X := HL p). rewrite EA in X. specialize (X (proj2 (in_mid _ _ _ _) (or_intror (or_introl eq_refl)))). lia.
           ++ rewrite EA in EP. destruct (Nat.lt_trichotomy (length (pre ++ pre2)) (length preL)) as [A|[A|A]].
              ** specialize (HL2 p (app_lt_index _ _ _ _ _ _ EP A)). lia.
              ** exfalso. apply EL. unfold zlen. lia.
              ** assert (In pL (pre ++ pre2)) by (eapply app_lt_index; [symmetry; exact EP|exact A]).
                 specialize (Hbefore pL H). specialize (Hle d (or_introl eq_refl)).
                 assert (p_begin pL <= p_last pL) by (rewrite EP in Hc2; apply (chrono_mid _ _ _ Hc2)). lia.
      * apply (IH (pre ++ pre2) (p :: rest)); auto.
        -- intros x Hx. apply Hle. right; auto.
        -- intros q x Hq Hx. specialize (Hbefore q Hq). specialize (Hd x Hx). lia.
Qed.

Lemma last_znth {A} (l : list A) x : znth l (zlen l - 1) = Some x -> exists l', l = l' ++ [x].
Proof.
  destruct (rev l) as [|y r] eqn:E.
  - assert (l = []) as -> by (rewrite <- (rev_involutive l), E; reflexivity). discriminate.
  - assert (L : l = rev r ++ [y]) by (rewrite <- (rev_involutive l), E; reflexivity).
    rewrite L. replace (zlen (rev r ++ [y]) - 1) with (zlen (rev r)) by (unfold zlen; rewrite app_length; simpl; lia).
    rewrite znth_mid. intros [= ->]. exists (rev r). auto.
Qed.

Lemma cross_spec periods dates last_date :
  chronological periods -> sorted_dates dates -> last (map Some dates) None = Some last_date ->
  exists flags, pl_cross periods dates = Ok flags /\
    flags_exactly (fun d => exists t, covered periods t /\ d <= t <= last_date) dates flags.
Proof.
  intros HC Hs HL. apply chronological_iff in HC.
  assert (ED : exists l', dates = l' ++ [last_date]).
  { destruct (rev dates) as [|y r] eqn:E.
    - assert (dates = []) as -> by (rewrite <- (rev_involutive dates), E; reflexivity). discriminate.
    - assert (L : dates = rev r ++ [y]) by (rewrite <- (rev_involutive dates), E; reflexivity).
      rewrite L, map_app in HL. cbn [map] in HL. rewrite last_last in HL. injection HL as ->. eauto. }
  destruct ED as [l' ED].
  assert (Hle : forall d, In d dates -> d <= last_date).
  { intros d Hd. rewrite ED in Hd, Hs. apply in_app_or in Hd. destruct Hd as [Hd|[<-|[]]]; [|lia].
    destruct (in_split _ _ Hd) as (a & b & ->). apply (Hs a d b last_date []). rewrite <- app_assoc. reflexivity. }
  unfold pl_cross.
  assert (EZ : znth dates (zlen dates - 1) = Some last_date).
  { rewrite ED. replace (zlen (l' ++ [last_date]) - 1) with (zlen l') by (unfold zlen; rewrite app_length; simpl; lia).
    apply znth_mid. }
  rewrite EZ. cbv zeta. eexists. split; [reflexivity|].
  unfold pl_lookup. change (skipn (Z.to_nat 0) periods) with periods.
  destruct (lookup_from_spec periods last_date HC 0) as [[I1 I2]|(pre & p & rest & E & I1 & I2 & I3)]; [lia| |].
  - rewrite I1. simpl (-1 =? -1). cbn [negb andb].
    apply (cross_loop_spec periods last_date (-1) HC (or_introl (conj eq_refl I2)) dates [] periods); auto.
    intros q d [].
  - rewrite I1, Z.add_0_l. assert (zlen pre =? -1 = false) as -> by (apply Z.eqb_neq; unfold zlen; lia).
    rewrite E at 1. rewrite znth_mid. cbn [negb andb]. destruct (p_contains p last_date) eqn:EC.
    + apply contains_iff in EC.
      assert (CL : covered periods last_date) by (exists p; split; auto; rewrite E; apply in_mid; auto).
      clear - Hle CL. unfold flags_exactly. induction dates as [|d t IH]; simpl; constructor.
      * split; auto. intros _. exists last_date. split; auto. specialize (Hle d (or_introl eq_refl)). lia.
      * apply IH. intros x Hx. apply Hle. right; auto.
    + apply (cross_loop_spec periods last_date (zlen pre) HC) with (pre := @nil period) (it := periods); auto.
      * right. exists pre, p, rest. repeat split; auto.
        assert (~ covers p last_date) by (rewrite <- contains_iff; congruence). unfold covers in H. lia.
      * intros q d [].
Qed.

Lemma cross_empty periods : pl_cross periods [] = UB "dates[-1] on an empty vector".
Proof. reflexivity. Qed.

(** ** join_adjacent_periods *)
(** [gap_joined l eps t]: [t] lies strictly between two consecutive periods of [l]
    whose distance is at most [eps]. *)
Lemma join_loop_spec eps l : forall cur prev,
  p_begin cur <= p_last cur -> p_last cur = p_last prev ->
  chrono (prev :: l) ->
  chrono (pl_join_loop cur prev l eps) /\
  (exists h t, pl_join_loop cur prev l eps = h :: t /\ p_begin h = p_begin cur) /\
  (forall l1 p q l2, pl_join_loop cur prev l eps = l1 ++ p :: q :: l2 -> p_begin q - p_last p > eps) /\
  (forall t, covered (pl_join_loop cur prev l eps) t <->
     covers cur t \/ covered l t \/
     exists l1 p q l2, prev :: l = l1 ++ p :: q :: l2 /\ p_begin q - p_last p <= eps /\ p_last p < t < p_begin q).
Proof.
  induction l as [|n l IH]; intros cur prev Hcur E C; cbn [pl_join_loop].
  - split; [constructor; auto; [intros ? []|constructor]|]. split; [exists cur, []; auto|]. split.
    + intros l1 p q l2 EE. destruct l1 as [|a [|b l1]]; discriminate.
    + intro t. unfold covered. split.
      * intros (p & [<-|[]] & H). auto.
      * intros [H|[(p & [] & _)|(l1 & p & q & l2 & EE & _)]]; [exists cur; simpl; auto|].
        destruct l1 as [|a [|b l1]]; discriminate.
  - inversion C as [|? ? Hp Hq Hc]; subst. inversion Hc as [|? ? Hn Hr Hc2]; subst.
    assert (Hpn := Hq n (or_introl eq_refl)).
    destruct (Z.leb_spec (p_begin n - p_last prev) eps) as [G|G].
    + destruct (IH (mk_period (p_begin cur) (p_last n)) n) as (I1 & I2 & I3 & I4); simpl; auto; [lia|].
      split; auto. split. { destruct I2 as (h & t & -> & B). exists h, t. auto. }
      split; auto. intro t. rewrite I4. unfold covers at 1; cbn [p_begin p_last]. split.
      * intros [H|[H|(l1 & p & q & l2 & EE & H)]].
        -- destruct (Z.le_gt_cases t (p_last prev)); [left; unfold covers; lia|].
           destruct (Z.le_gt_cases (p_begin n) t).
           ++ right; left. exists n. split; [left; auto|unfold covers; lia].
           ++ right; right. exists [], prev, n, l. split; [reflexivity|lia].
        -- right; left. destruct H as (x & Hx & H). exists x. split; auto. right; auto.
        -- right; right. exists (prev :: l1), p, q, l2. rewrite EE. auto.
      * unfold covers at 1. intros [H|[(x & [<-|Hx] & H)|(l1 & p & q & l2 & EE & H)]].
        -- left. lia.
        -- left. unfold covers in H. lia.
        -- right; left. exists x; auto.
        -- destruct l1 as [|a l1].
           ++ injection EE as -> -> ->. left. lia.
           ++ injection EE as -> EE. right; right. exists l1, p, q, l2. auto.
    + destruct (IH n n) as (I1 & (h & tl & EH & BH) & I3 & I4); auto.
      split.
      { constructor; auto. intros q Hin. rewrite EH in Hin, I1. rewrite E. destruct Hin as [<-|Hin]; [lia|].
        inversion I1; subst. specialize (H2 q Hin). lia. }
      split; [exists cur, (pl_join_loop n n l eps); auto|]. split.
      * intros l1 p q l2 EE. destruct l1 as [|a l1].
        -- injection EE as <- EE. rewrite EH in EE. injection EE as <- _. lia.
        -- injection EE as _ EE. apply (I3 _ _ _ _ EE).
      * intro t. split.
        -- intros (x & [<-|Hx] & H); auto.
           assert (Hcv : covered (pl_join_loop n n l eps) t) by (exists x; auto).
           apply I4 in Hcv. destruct Hcv as [Y|[(y & Hy & Y)|(l1 & p & q & l2 & EE & Y)]].
           ++ right; left. exists n. simpl; auto.
           ++ right; left. exists y. simpl; auto.
           ++ right; right. exists (prev :: l1), p, q, l2. rewrite EE. auto.
        -- intro HH. assert (K : covers cur t \/ covered (pl_join_loop n n l eps) t).
           { destruct HH as [Y|[(y & [<-|Hy] & Y)|(l1 & p & q & l2 & EE & Y)]]; auto; right; apply I4; auto.
             - right; left. exists y; auto.
             - right; right. destruct l1 as [|a l1].
               + injection EE as -> -> ->. lia.
               + injection EE as -> EE. exists l1, p, q, l2. auto. }
           destruct K as [K|(y & Hy & K)]; [exists cur; simpl; auto|exists y; simpl; auto].
Qed.

Lemma join_spec l eps : chronological l ->
  chronological (pl_join l eps) /\
  (forall l1 p q l2, pl_join l eps = l1 ++ p :: q :: l2 -> p_begin q - p_last p > eps) /\
  (forall t, covered (pl_join l eps) t <->
     covered l t \/
     exists l1 p q l2, l = l1 ++ p :: q :: l2 /\ p_begin q - p_last p <= eps /\ p_last p < t < p_begin q).
Proof.
  rewrite !chronological_iff. destruct l as [|p l]; intro C; cbn [pl_join].
  - split; auto. split; [intros l1 ? ? ? E; destruct l1; discriminate|]. intro t. split; auto.
    intros [H|(l1 & ? & ? & ? & E & _)]; auto. destruct l1; discriminate.
  - inversion C; subst. destruct (join_loop_spec eps l p p) as (I1 & _ & I3 & I4); auto.
    split; auto. split; auto. intro t. rewrite I4. split.
    + intros [H|[(q & Hq & H)|H]]; auto; left; [exists p|exists q]; simpl; auto.
    + intros [(q & [<-|Hq] & H)|H]; auto. right; left. exists q; auto.
Qed.

(** ** Compaction *)
Fixpoint map_filter {A B} (f : A -> option B) (l : list A) : list B :=
  match l with [] => [] | x :: t => match f x with Some y => y :: map_filter f t | None => map_filter f t end end.

Lemma firstn_set_nth {A} n (v : A) l : (n < length l)%nat -> firstn (S n) (set_nth n v l) = firstn n l ++ [v].
Proof. revert n. induction l as [|h t IH]; intros [|n] H; simpl in *; try lia; auto. f_equal. apply IH. lia. Qed.
Lemma skipn_set_nth {A} n m (v : A) l : (n < m)%nat -> skipn m (set_nth n v l) = skipn m l.
Proof. revert n m. induction l as [|h t IH]; intros [|n] [|m] H; simpl in *; try lia; auto. apply IH. lia. Qed.
Lemma skipn_cons_nth {A} n (l : list A) x t : skipn n l = x :: t -> nth_error l n = Some x /\ skipn (S n) l = t.
Proof.
  revert n. induction l as [|h u IH]; intros [|n] H; simpl in *; try discriminate.
  - injection H as -> ->. auto.
  - apply IH in H. simpl. auto.
Qed.

Lemma compact_loop_spec f : forall n arr ix jx,
  (ix <= jx)%nat -> length (skipn jx arr) = n -> (jx <= length arr)%nat ->
  compact_loop n f arr ix jx = firstn ix arr ++ map_filter f (skipn jx arr).
Proof.
  induction n as [|n IH]; intros arr ix jx L E J; simpl.
  - destruct (skipn jx arr); [rewrite app_nil_r; auto|discriminate].
  - destruct (skipn jx arr) as [|x t] eqn:S; [discriminate|].
    destruct (skipn_cons_nth _ _ _ _ S) as [-> S2]. simpl in E.
    assert (jx < length arr)%nat by (rewrite <- (firstn_skipn jx arr), S, app_length, firstn_length; simpl; lia).
    simpl. destruct (f x) as [y|].
    + rewrite IH; try lia.
      * rewrite firstn_set_nth by lia. rewrite skipn_set_nth, S2 by lia. rewrite <- app_assoc. reflexivity.
      * rewrite skipn_set_nth, S2 by lia. lia.
      * rewrite set_nth_length. lia.
    + rewrite IH; try lia; rewrite S2; auto; lia.
Qed.

Lemma compact_spec f l : compact f l = map_filter f l.
Proof. unfold compact. rewrite compact_loop_spec; auto; lia. Qed.

Lemma map_filter_filter (f : period -> bool) l :
  map_filter (fun q => if f q then Some q else None) l = List.filter f l.
Proof. induction l as [|x t IH]; simpl; auto. destruct (f x); rewrite IH; auto. Qed.

Lemma within_eq l p : pl_within l p = List.filter (fun q => p_intersects p q) l.
Proof. unfold pl_within. rewrite compact_spec. apply map_filter_filter. Qed.
Lemma filter_eq l d : pl_filter l d = List.filter (fun q => p_duration q >=? d) l.
Proof. unfold pl_filter. rewrite compact_spec. apply (map_filter_filter (fun q => p_duration q >=? d)). Qed.

Lemma map_filter_in {A B} (f : A -> option B) l y : In y (map_filter f l) <-> exists x, In x l /\ f x = Some y.
Proof.
  induction l as [|x t IH]; simpl.
  - split; [intros []|intros (x & [] & _)].
  - destruct (f x) as [z|] eqn:E; simpl; rewrite IH.
    + split; [intros [<-|(w & Hw & H)]; eauto|].
      intros (w & [<-|Hw] & H); [left; congruence|right; eauto].
    + split; [intros (w & Hw & H); eauto|]. intros (w & [<-|Hw] & H); [congruence|eauto].
Qed.

Lemma list_intersection_spec l p t :
  covered (pl_intersection l p) t <-> covered l t /\ covers p t.
Proof.
  unfold pl_intersection. rewrite compact_spec. unfold covered. split.
  - intros (q & Hq & C). apply map_filter_in in Hq. destruct Hq as (x & Hx & E).
    cbv zeta in E. destruct (p_is_null (p_intersection x p)); [discriminate|]. injection E as <-.
    apply intersection_iff in C. split; [exists x|]; tauto.
  - intros [(x & Hx & C) Cp]. exists (p_intersection x p).
    assert (CC : covers (p_intersection x p) t) by (apply intersection_iff; auto).
    split; auto. apply map_filter_in. exists x. split; auto. cbv zeta.
    rewrite (proj2 (is_null_false _)); auto. exists t; auto.
Qed.
Lemma list_intersection_nonempty l p q : In q (pl_intersection l p) -> nonempty q.
Proof.
  unfold pl_intersection. rewrite compact_spec. intro H. apply map_filter_in in H. destruct H as (x & _ & E).
  cbv zeta in E. destruct (p_is_null (p_intersection x p)) eqn:N; [discriminate|]. injection E as <-.
  apply is_null_false; auto.
Qed.
Lemma list_intersection_chrono l p : chronological l -> chronological (pl_intersection l p).
Proof.
  rewrite !chronological_iff. unfold pl_intersection. rewrite compact_spec.
  induction 1 as [|q t Hq Ht Hc IH]; simpl; [constructor|].
  destruct (p_is_null (p_intersection q p)) eqn:N; auto. constructor; auto.
  - apply nonempty_iff. apply is_null_false. auto.
  - intros r Hr. apply map_filter_in in Hr. destruct Hr as (x & Hx & E). cbv zeta in E.
    destruct (p_is_null (p_intersection x p)) eqn:N2; [discriminate|]. injection E as <-.
    specialize (Ht x Hx). apply is_null_false in N, N2. apply precedes_iff; auto.
    intros a b Ha Hb. apply intersection_iff in Ha, Hb. unfold covers in *. lia.
Qed.

(** ** is_close *)
Lemma is_close_iff p d eps : nonempty p -> 0 <= eps ->
  (p_is_close p d eps = true <-> exists t, covers p t /\ Z.abs (d - t) <= eps).
Proof.
  rewrite nonempty_iff. intros N He. unfold p_is_close, covers. pb. split.
  - intro H. destruct (Z.lt_ge_cases d (p_begin p)); [exists (p_begin p); lia|].
    destruct (Z.lt_ge_cases (p_last p) d); [exists (p_last p); lia|exists d; lia].
  - intros (t & H1 & H2). lia.
Qed.
Lemma list_is_close_iff l d eps : (forall p, In p l -> nonempty p) -> 0 <= eps ->
  (pl_is_close l d eps = true <-> exists t, covered l t /\ Z.abs (d - t) <= eps).
Proof.
  intros N He. unfold pl_is_close. rewrite existsb_exists. split.
  - intros (p & Hp & H). apply is_close_iff in H; auto. destruct H as (t & H1 & H2). exists t. split; auto. exists p; auto.
  - intros (t & (p & Hp & H1) & H2). exists p. split; auto. apply is_close_iff; eauto.
Qed.
