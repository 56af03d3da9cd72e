From Verif Require Import Base BaseProofs MathModel MathProofs AxisModel AxisSpec AxisProofs AxisProofs2 AxisProofs3.
Open Scope Z_scope.

Lemma Qdiv_eq a b c : ~ (b == 0)%Q -> (a / b == c)%Q -> (a == c * b)%Q.
Proof. intros Hb H. rewrite <- H. field. auto. Qed.

(** ** Construction from values *)
Lemma is_same_tol a b eps : (0 <= eps)%Q -> is_same a b eps = true ->
  (Qabs (a - b) <= eps * Qmax 1 (Qmax (Qabs a) (Qabs b)))%Q.
Proof.
  intros He. unfold is_same.
  assert (M1 := Q.le_max_l 1 (Qmax (Qabs a) (Qabs b))).
  assert (M2 := Q.le_max_r 1 (Qmax (Qabs a) (Qabs b))).
  set (m := Qmax (Qabs a) (Qabs b)) in *. set (M := Qmax 1 m) in *. clearbody M m.
  destruct (Qleb_spec (Qabs (a - b)) eps).
  - intros _. eapply Qle_trans; [eassumption|]. nra.
  - intro H0. destruct (Qltb_spec (Qabs (a - b)) (m * eps)); [|discriminate]. nra.
Qed.

Lemma is_same_sign a b eps : (0 <= eps)%Q -> (eps < 1)%Q -> (eps < Qabs b)%Q ->
  is_same a b eps = true -> ((0 < a /\ 0 < b) \/ (a < 0 /\ b < 0))%Q.
Proof.
  intros He H1 Hb. unfold is_same.
  destruct (Qleb_spec (Qabs (a - b)) eps) as [Q1|Q1].
  - intros _. apply Qabs_Qle_condition in Q1. revert Hb. apply Qabs_case; intros; [left|right]; lra.
  - destruct (Qltb_spec (Qabs (a - b)) (Qmax (Qabs a) (Qabs b) * eps)) as [Q2|]; [|discriminate].
    intros _. revert Hb Q1 Q2.
    destruct (Q.max_spec (Qabs a) (Qabs b)) as [[L ->]|[L ->]]; revert L;
    apply (Qabs_case a); intro A; apply (Qabs_case b); intro B; apply (Qabs_case (a - b)); intro D; intros; try (left; split; nra); try (right; split; nra).
Qed.

Lemma all_steps_znth inc eps l : all_steps_same inc eps l = true ->
  forall i a b, znth l i = Some a -> znth l (i + 1) = Some b -> is_same (b - a) inc eps = true.
Proof.
  induction l as [|e t IH]; intros H i a b Ha Hb.
  - apply znth_Some in Ha. unfold zlen in Ha; simpl in Ha; lia.
  - destruct t as [|e' t'].
    + apply znth_Some in Ha. apply znth_Some in Hb. unfold zlen in *; simpl in *; lia.
    + cbn [all_steps_same] in H. apply andb_true_iff in H. destruct H as [H1 H2].
      assert (Hi := znth_Some _ _ _ Ha). destruct (Z.eq_dec i 0) as [->|].
      * unfold znth in Ha, Hb. simpl in Ha, Hb. injection Ha as <-. injection Hb as <-. auto.
      * rewrite znth_cons in Ha by lia. rewrite znth_cons in Hb by lia.
        apply (IH H2 (i - 1)); auto. replace (i - 1 + 1) with (i + 1 - 1) by ring. auto.
Qed.

Lemma last_znth {A} (l : list A) (d : A) : 0 < zlen l -> znth l (zlen l - 1) = Some (last l d).
Proof.
  intro H. unfold znth, zlen in *. destruct (Z.ltb_spec (Z.of_nat (length l) - 1) 0); [lia|].
  replace (Z.to_nat (Z.of_nat (length l) - 1)) with (length l - 1)%nat by lia.
  clear H0. induction l as [|e t IH]; simpl in *; [lia|].
  destruct t; auto. simpl length in *.
  rewrite <- (IH ltac:(lia)). replace (S (length t) - 0)%nat with (S (S (length t) - 1)) by lia. reflexivity.
Qed.

Lemma hd_znth {A} (l : list A) d : 0 < zlen l -> znth l 0 = Some (hd d l).
Proof. destruct l; unfold zlen; simpl; [lia|reflexivity]. Qed.

Lemma evenly_spaced_inv l eps : is_evenly_spaced l eps = true ->
  2 <= zlen l /\ exists inc,
    (inc * inject_Z (zlen l - 1) == last l 0 - hd 0 l)%Q /\ (eps < Qabs inc)%Q /\
    inc = ((last l 0 - hd 0 l) / inject_Z (zlen l - 1))%Q /\
    all_steps_same inc eps l = true.
Proof.
  unfold is_evenly_spaced. destruct l as [|a [|b t]]; try discriminate.
  set (l := a :: b :: t). 
  destruct (Qleb_spec (Qabs ((last l 0%Q - a) / inject_Z (zlen l - 1))) eps); [discriminate|].
  intro H9. assert (2 <= zlen l) by (unfold zlen, l; simpl; lia). split; auto.
  exists ((last l 0 - a) / inject_Z (zlen l - 1))%Q. split; [|auto].
  assert (0 < inject_Z (zlen l - 1))%Q by (change 0%Q with (inject_Z 0); apply inject_Z_lt; lia).
  change (hd 0%Q l) with a. field. lra.
Qed.

(** The regular container built from the ends of an evenly spaced list has the
    list's average increment. *)
Lemma regular_of_even l eps c : is_evenly_spaced l eps = true -> (0 <= eps)%Q ->
  mk_regular (hd 0%Q l) (last l 0%Q) (zlen l) = Ok c ->
  c_size c = zlen l /\ exists inc, (inc * inject_Z (zlen l - 1) == last l 0 - hd 0 l)%Q /\
    (eps < Qabs inc)%Q /\ all_steps_same inc eps l = true /\
    forall i, c_value c i = Some (hd 0 l + inject_Z i * inc)%Q.
Proof.
  intros H He. destruct (evenly_spaced_inv l eps H) as (Hn & inc & A & B & Ei & C).
  unfold mk_regular. destruct (Z.eqb_spec (zlen l) 0); [lia|].
  destruct (Qeqb_spec (hd 0%Q l) (last l 0%Q)); [discriminate|].
  destruct (Z.eqb_spec (zlen l) 1); [lia|]. intro E; injection E as <-. simpl. split; auto.
  exists inc. repeat split; auto. intro i. rewrite Ei. reflexivity.
Qed.

(** Accumulated deviation between the stored regular axis and the values. *)
Lemma drift_bound l eps inc S : (0 <= eps)%Q -> (1 <= S)%Q ->
  all_steps_same inc eps l = true -> (Qabs inc <= S)%Q ->
  (forall i a b, znth l i = Some a -> znth l (i + 1) = Some b -> (Qabs (b - a) <= S)%Q) ->
  forall k v0 v, znth l 0 = Some v0 -> znth l (Z.of_nat k) = Some v ->
  (Qabs (v - (v0 + inject_Z (Z.of_nat k) * inc)) <= inject_Z (Z.of_nat k) * (eps * S))%Q.
Proof.
  intros He HS HA HI HB. induction k as [|k IH]; intros v0 v H0 Hv.
  - simpl Z.of_nat in *. rewrite H0 in Hv. injection Hv as <-. change (inject_Z 0) with 0%Q.
    assert (E : (v0 - (v0 + 0 * inc) == 0)%Q) by ring. rewrite E. simpl. lra.
  - rewrite Nat2Z.inj_succ in *. unfold Z.succ in *.
    assert (R := znth_Some _ _ _ Hv).
    destruct (znth_in_range l (Z.of_nat k) ltac:(lia)) as [u Hu].
    specialize (IH v0 u H0 Hu).
    assert (Sm := all_steps_znth _ _ _ HA _ _ _ Hu Hv).
    apply is_same_tol in Sm; auto. specialize (HB _ _ _ Hu Hv).
    assert (Mx : (Qmax 1 (Qmax (Qabs (v - u)) (Qabs inc)) <= S)%Q).
    { apply Q.max_lub; auto. apply Q.max_lub; auto. }
    assert (Sm' : (Qabs (v - u - inc) <= eps * S)%Q) by nra.
    rewrite inject_Z_plus. change (inject_Z 1) with 1%Q.
    assert (E : (v - (v0 + (inject_Z (Z.of_nat k) + 1) * inc) == (u - (v0 + inject_Z (Z.of_nat k) * inc)) + (v - u - inc))%Q) by ring.
    rewrite E. eapply Qle_trans; [apply Qabs_triangle|].
    assert (E2 : ((inject_Z (Z.of_nat k) + 1) * (eps * S) == inject_Z (Z.of_nat k) * (eps * S) + eps * S)%Q) by ring.
    rewrite E2. apply Qplus_le_compat; auto.
Qed.

(** The average of bounded steps is bounded. *)
Lemma total_bound l S : 
  (forall i a b, znth l i = Some a -> znth l (i + 1) = Some b -> (Qabs (b - a) <= S)%Q) ->
  forall k v0 v, znth l 0 = Some v0 -> znth l (Z.of_nat k) = Some v ->
  (Qabs (v - v0) <= inject_Z (Z.of_nat k) * S)%Q.
Proof.
  intros HB. induction k as [|k IH]; intros v0 v H0 Hv.
  - simpl Z.of_nat in *. rewrite H0 in Hv. injection Hv as <-. change (inject_Z 0) with 0%Q.
    assert (E : (v0 - v0 == 0)%Q) by ring. rewrite E. simpl. lra.
  - rewrite Nat2Z.inj_succ in *. unfold Z.succ in *.
    assert (R := znth_Some _ _ _ Hv).
    destruct (znth_in_range l (Z.of_nat k) ltac:(lia)) as [u Hu].
    specialize (IH v0 u H0 Hu). specialize (HB _ _ _ Hu Hv).
    rewrite inject_Z_plus. change (inject_Z 1) with 1%Q.
    assert (E : (v - v0 == (u - v0) + (v - u))%Q) by ring.
    rewrite E. eapply Qle_trans; [apply Qabs_triangle|].
    assert (E2 : ((inject_Z (Z.of_nat k) + 1) * S == inject_Z (Z.of_nat k) * S + S)%Q) by ring.
    rewrite E2. apply Qplus_le_compat; auto.
Qed.

Lemma inc_bound l S inc : 2 <= zlen l ->
  (inc * inject_Z (zlen l - 1) == last l 0 - hd 0 l)%Q ->
  (forall i a b, znth l i = Some a -> znth l (i + 1) = Some b -> (Qabs (b - a) <= S)%Q) ->
  (Qabs inc <= S)%Q.
Proof.
  intros Hn He HB.
  assert (T := total_bound l S HB (Z.to_nat (zlen l - 1)) (hd 0%Q l) (last l 0%Q)).
  rewrite Z2Nat.id in T by lia.
  specialize (T (hd_znth l 0%Q ltac:(lia)) (last_znth l 0%Q ltac:(lia))).
  rewrite <- He in T. rewrite Qabs_Qmult in T.
  assert (0 < inject_Z (zlen l - 1))%Q by (change 0%Q with (inject_Z 0); apply inject_Z_lt; lia).
  rewrite (Qabs_pos (inject_Z (zlen l - 1))) in T by lra.
  rewrite Qmult_comm in T. apply Qmult_lt_0_le_reg_r with (z := inject_Z (zlen l - 1)); auto. lra.
Qed.

Definition values_of (l : list Q) (is_circle : bool) : list Q :=
  if is_circle then normalize_longitude 360 l else l.

Lemma axis_of_values_drift l eps circ a S :
  (0 <= eps)%Q -> (1 <= S)%Q ->
  axis_of_values l eps circ = Ok a ->
  (forall i u v, znth (values_of l circ) i = Some u -> znth (values_of l circ) (i + 1) = Some v -> (Qabs (v - u) <= S)%Q) ->
  len a = zlen (values_of l circ) /\
  forall i v, znth (values_of l circ) i = Some v ->
    exists w, at_index a i w /\ (Qabs (v - w) <= inject_Z i * (eps * S))%Q /\ 
      (is_regular a = false -> w = v).
Proof.
  intros He HS Ha HB. assert (OK := axis_of_values_ok _ _ _ _ He Ha).
  unfold axis_of_values, init_from_values in Ha. fold (values_of l circ) in Ha.
  set (l' := values_of l circ) in *. clearbody l'.
  destruct (is_evenly_spaced l' eps) eqn:Ev.
  - destruct (mk_regular (hd 0%Q l') (last l' 0%Q) (zlen l')) as [c| |] eqn:Er; try discriminate.
    cbn [obind] in Ha.
    destruct (regular_of_even l' eps c Ev He Er) as (Hs & inc & H1 & H2 & H3 & H4).
    destruct (evenly_spaced_inv _ _ Ev) as (Hn & _).
    unfold finish_axis in Ha. destruct (c_size c =? 0); [discriminate|].
    destruct (negb (c_is_monotonic c)); [discriminate|]. injection Ha as <-.
    unfold len; simpl. split; auto. intros i v Hi. assert (R := znth_Some _ _ _ Hi).
    exists (hd 0 l' + inject_Z i * inc)%Q. split; [|split].
    + unfold at_index, coordinate_value; simpl. rewrite Hs, H4.
      destruct (Z.ltb_spec i 0); [lia|]. rewrite Z.geb_leb. destruct (Z.leb_spec (zlen l') i); [lia|]. reflexivity.
    + assert (IB := inc_bound l' S inc Hn H1 HB).
      assert (D := drift_bound l' eps inc S He HS H3 IB HB (Z.to_nat i) (hd 0%Q l') v).
      rewrite Z2Nat.id in D by lia. apply D; auto. apply hd_znth. lia.
    + unfold is_regular; simpl. destruct c; try discriminate.
      all: unfold mk_regular in Er; destruct (zlen l' =? 0); try discriminate;
        destruct (Qeq_bool (hd 0%Q l') (last l' 0%Q)); discriminate.
  - unfold mk_irregular in Ha. destruct (zlen l' =? 0) eqn:Z0; [discriminate|]. cbn [obind] in Ha.
    unfold finish_axis in Ha. cbn [c_size] in Ha. rewrite Z0 in Ha.
    destruct (negb _); [discriminate|]. injection Ha as <-.
    unfold len; cbn [a_cont c_size is_regular]. split; auto. intros i v Hi. assert (R := znth_Some _ _ _ Hi).
    exists v. split; [|split]; auto.
    + unfold at_index, coordinate_value; simpl. rewrite Hi.
      destruct (Z.ltb_spec i 0); [lia|]. rewrite Z.geb_leb. destruct (Z.leb_spec (zlen l') i); [lia|]. reflexivity.
    + assert (E : (v - v == 0)%Q) by ring. rewrite E. change (Qabs 0) with 0%Q.
      assert (inject_Z 0 <= inject_Z i)%Q by (apply inject_Z_le; lia). change (inject_Z 0) with 0%Q in *.
      apply Qmult_le_0_compat; nra.
Qed.

(** Acceptance: exactly the strictly monotonic lists. *)
Lemma mono_list asc l :
  (forall i a b, znth l i = Some a -> znth l (i + 1) = Some b -> if (asc : bool) then (a < b)%Q else (b < a)%Q) ->
  (if asc then strictly_ascending l else strictly_descending l).
Proof.
  intro H.
  assert (M : mono (fval (CIrr asc l)) (zlen l) asc).
  { apply mono_of_step. intros i Hi Hi'. unfold fval; simpl.
    destruct (znth_in_range l i ltac:(lia)) as [a Ea].
    destruct (znth_in_range l (i + 1) ltac:(lia)) as [b Eb]. specialize (H i a b Ea Eb).
    rewrite Ea, Eb. auto. }
  assert (G : forall i j a b, znth l i = Some a -> znth l j = Some b -> i < j -> if asc then (a < b)%Q else (b < a)%Q).
  { intros i j a b Ha Hb Hij. assert (Ri := znth_Some _ _ _ Ha). assert (Rj := znth_Some _ _ _ Hb).
    assert (X := M i j ltac:(lia) ltac:(lia)). unfold fval in X; simpl in X. rewrite Ha, Hb in X. auto. }
  destruct asc; exact G.
Qed.

Lemma monotonic_of_strict asc l :
  (if (asc : bool) then strictly_ascending l else strictly_descending l) ->
  has_adjacent_equal l = false /\ is_sorted (cmp_of asc) l = true.
Proof.
  induction l as [|e t IH]; intro H; [auto|]. destruct t as [|e' t']; [auto|].
  assert (H' : if asc then strictly_ascending (e' :: t') else strictly_descending (e' :: t')).
  { destruct asc; intros i j a b Ha Hb Hij;
      assert (Ri := znth_Some _ _ _ Ha); assert (Rj := znth_Some _ _ _ Hb);
      apply (H (i + 1) (j + 1) a b); try lia;
      rewrite znth_cons by lia; [replace (i+1-1) with i by ring|replace (j+1-1) with j by ring
                                |replace (i+1-1) with i by ring|replace (j+1-1) with j by ring]; auto. }
  destruct (IH H') as [I1 I2].
  assert (X : if asc then (e < e')%Q else (e' < e)%Q).
  { destruct asc; apply (H 0 1); auto; lia. }
  change (has_adjacent_equal (e :: e' :: t')) with (Qeq_bool e e' || has_adjacent_equal (e' :: t')).
  change (is_sorted (cmp_of asc) (e :: e' :: t')) with (negb (cmp_of asc e' e) && is_sorted (cmp_of asc) (e' :: t')).
  rewrite I1, I2. split.
  - destruct (Qeqb_spec e e'); auto. exfalso. destruct asc; lra.
  - rewrite andb_true_r. apply negb_true_iff. apply cmp_of_false. destruct asc; lra.
Qed.

Lemma axis_of_values_accepts l eps :
  (0 <= eps)%Q -> (eps < 1)%Q ->
  (exists a, axis_of_values l eps false = Ok a) <->
  l <> [] /\ (strictly_ascending l \/ strictly_descending l).
Proof.
  intros He H1. unfold axis_of_values, init_from_values. split.
  - intros [a Ha]. destruct (is_evenly_spaced l eps) eqn:Ev.
    + destruct (evenly_spaced_inv _ _ Ev) as (Hn & inc & A & B & _ & C).
      split. { intros ->. unfold zlen in Hn; simpl in Hn; lia. }
      assert (P := all_steps_znth _ _ _ C).
      destruct (Qlt_le_dec 0 inc) as [L|L].
      * left. apply (mono_list true). intros i u v Hu Hv. specialize (P _ _ _ Hu Hv).
        apply is_same_sign in P; auto. destruct P; lra.
      * right. apply (mono_list false). intros i u v Hu Hv. specialize (P _ _ _ Hu Hv).
        apply is_same_sign in P; auto. destruct P; lra.
    + unfold mk_irregular in Ha. destruct (Z.eqb_spec (zlen l) 0) as [|Z0]; [discriminate|].
      cbn [obind] in Ha. unfold finish_axis in Ha. cbn [c_size] in Ha.
      destruct (Z.eqb_spec (zlen l) 0); [lia|].
      destruct (c_is_monotonic _) eqn:M; [|discriminate].
      split. { intros ->. apply Z0. reflexivity. }
      assert (zlen l >= 0) by (unfold zlen; lia).
      destruct (wf_irr_of_monotonic l _ ltac:(lia) M) as [_ W].
      set (asc := calc_ascending (zlen l) (znth l 0) (znth l 1)) in *. clearbody asc.
      assert (G : if asc then strictly_ascending l else strictly_descending l).
      { apply mono_list. intros i u v Hu Hv.
        assert (Ri := znth_Some _ _ _ Hu). assert (Rj := znth_Some _ _ _ Hv).
        assert (X := W i (i + 1) ltac:(lia) ltac:(lia)). unfold fval in X; simpl in X.
        rewrite Hu, Hv in X. auto. }
      destruct asc; auto.
  - intros [Hl Hm].
    assert (Hn : 0 < zlen l) by (destruct l; [congruence|unfold zlen; simpl; lia]).
    destruct (is_evenly_spaced l eps) eqn:Ev.
    + destruct (evenly_spaced_inv _ _ Ev) as (Hn2 & inc & A & B & _ & C).
      unfold mk_regular. destruct (Z.eqb_spec (zlen l) 0); [lia|].
      destruct (Qeqb_spec (hd 0%Q l) (last l 0%Q)) as [Q1|Q1].
      { exfalso. assert (X := hd_znth l 0%Q Hn). assert (Y := last_znth l 0%Q Hn).
        destruct Hm as [Hm|Hm]; specialize (Hm _ _ _ _ X Y ltac:(lia)); lra. }
      cbn [obind]. unfold finish_axis. cbn [c_size c_is_monotonic negb].
      destruct (Z.eqb_spec (zlen l) 0); [lia|]. eexists; reflexivity.
    + unfold mk_irregular. destruct (Z.eqb_spec (zlen l) 0); [lia|]. cbn [obind].
      unfold finish_axis. cbn [c_size]. destruct (Z.eqb_spec (zlen l) 0); [lia|].
      assert (M : c_is_monotonic (CIrr (calc_ascending (zlen l) (znth l 0) (znth l 1)) l) = true).
      { cbn [c_is_monotonic]. apply andb_true_intro.
        destruct Hm as [Hm|Hm].
        - destruct (monotonic_of_strict true l Hm) as [-> I2]. split; auto.
          unfold calc_ascending. destruct (Z.ltb_spec (zlen l) 2); auto.
          destruct (znth_in_range l 0 ltac:(lia)) as [u Hu]. destruct (znth_in_range l 1 ltac:(lia)) as [v Hv].
          rewrite Hu, Hv. specialize (Hm 0 1 u v Hu Hv ltac:(lia)).
          destruct (Qltb_spec u v); auto. exfalso; lra.
        - destruct (monotonic_of_strict false l Hm) as [-> I2]. split; auto.
          unfold calc_ascending. destruct (Z.ltb_spec (zlen l) 2).
          + destruct l as [|e [|e' t]]; auto. unfold zlen in *; simpl length in *; lia.
          + destruct (znth_in_range l 0 ltac:(lia)) as [u Hu]. destruct (znth_in_range l 1 ltac:(lia)) as [v Hv].
            rewrite Hu, Hv. specialize (Hm 0 1 u v Hu Hv ltac:(lia)).
            destruct (Qltb_spec u v); auto. exfalso; lra. }
      rewrite M. simpl. eexists; reflexivity.
Qed.

(** ** Unwrapping of longitudes *)
Lemma unwrap_angles asc cross prev l :
  Forall2 same_angle (unwrap asc 360 cross prev l) l.
Proof.
  revert cross prev. induction l as [|x t IH]; intros; simpl; constructor; auto.
  destruct cross; [|destruct asc; [destruct (Qltb x prev)|destruct (Qltb prev x)]];
    try destruct asc; (exists 1 + exists (-1) + exists 0); unfold inject_Z; lra.
Qed.

Lemma same_angle_refl x : same_angle x x.
Proof. exists 0. unfold inject_Z. lra. Qed.

Lemma normalize_longitude_angles l : Forall2 same_angle (normalize_longitude 360 l) l.
Proof.
  assert (R : forall l, Forall2 same_angle l l).
  { induction l0; constructor; auto. apply same_angle_refl. }
  unfold normalize_longitude. destruct (strictly_monotone_dir _ l); auto.
  destruct l; constructor; [apply same_angle_refl|]. apply unwrap_angles.
Qed.

(** Once the seam is crossed every later value is shifted by one turn. *)
Lemma unwrap_crossed asc prev l :
  unwrap asc 360 true prev l = map (fun x => if asc : bool then x + 360 else x - 360)%Q l.
Proof. revert prev. induction l; intro; simpl; f_equal; auto. Qed.

(** Longitudes given as two ascending runs (e.g. 0..180, -180..-1) are unwrapped
    into one ascending run. *)
Lemma unwrap_run asc prev l1 l2 x :
  (forall a b t1 t2, prev :: l1 = t1 ++ a :: b :: t2 -> if (asc : bool) then (a < b)%Q else (b < a)%Q) ->
  (if asc then (x < last (prev :: l1) 0)%Q else (last (prev :: l1) 0 < x)%Q) ->
  unwrap asc 360 false prev (l1 ++ x :: l2) =
  l1 ++ map (fun y => if asc then y + 360 else y - 360)%Q (x :: l2).
Proof.
  revert prev. induction l1 as [|y t IH]; intros prev Hm Hx.
  - simpl in Hx. simpl. destruct asc.
    + destruct (Qltb_spec x prev); [|exfalso; lra]. rewrite unwrap_crossed. reflexivity.
    + destruct (Qltb_spec prev x); [|exfalso; lra]. rewrite unwrap_crossed. reflexivity.
  - assert (H0 := Hm prev y [] t eq_refl). cbn [app unwrap].
    assert (E : (if asc then Qltb y prev else Qltb prev y) = false).
    { destruct asc; [destruct (Qltb_spec y prev)|destruct (Qltb_spec prev y)]; auto; exfalso; lra. }
    rewrite E. f_equal. apply IH.
    + intros a b t1 t2 H. apply (Hm a b (prev :: t1) t2). simpl. f_equal. auto.
    + simpl in Hx. exact Hx.
Qed.
