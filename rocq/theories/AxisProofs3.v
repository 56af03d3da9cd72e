From Verif Require Import Base BaseProofs MathModel MathProofs AxisModel AxisSpec AxisProofs AxisProofs2.
Open Scope Z_scope.

(** ** Nearest index on plain axes *)
Lemma find_nearest_plain a x bounded :
  axis_ok a -> a_circle a = None ->
  exists r, find_nearest_index a x bounded = Ok r /\
    ((r = -1 /\ bounded = false /\ ~ inside a x) \/ nearest_last a x r).
Proof.
  intros OK Hc. assert (W := proj1 OK).
  assert (Hc' : a_is_circle a = false).
  { destruct OK as (_ & _ & C2). destruct (a_is_circle a); auto. specialize (C2 eq_refl). congruence. }
  unfold find_nearest_index. rewrite normalize_none by auto.
  destruct (c_find_spec (a_cont a) x bounded W) as (r & -> & H). cbn [obind].
  rewrite Hc', andb_false_r. exists r. split; auto.
  destruct H as [(-> & B & H & H0)|H].
  - left. split; auto. split; auto. rewrite inside_iff by auto. intros [A1 A2].
    destruct (Z.eq_dec (c_size (a_cont a)) 1) as [E|E].
    + unfold lo, hi in A1, A2. rewrite E in A1, A2. simpl in A1, A2.
      destruct (c_asc (a_cont a)); apply H0; lra.
    + assert (Hn := wf_size _ W). assert (O := H ltac:(left; lia)).
      unfold out_of_ends, lo, hi in *. destruct (c_asc (a_cont a)); lra.
  - right. apply nearest_last_iff; auto.
Qed.

Lemma irregular_outside a x :
  axis_ok a -> a_circle a = None -> is_regular a = false ->
  find_nearest_index a x false = Ok (-1) <-> ~ inside a x.
Proof.
  intros OK Hc Hr. split.
  - intro H. destruct (find_nearest_plain a x false OK Hc) as (r & Hr' & [(_ & _ & N)|N]); auto.
    rewrite H in Hr'. injection Hr' as <-. destruct N as (v & Hv & _).
    apply at_index_iff in Hv; [|apply OK]. lia.
  - intro H. assert (W := proj1 OK). assert (Hc' : a_is_circle a = false).
    { destruct OK as (_ & _ & C2). destruct (a_is_circle a); auto. specialize (C2 eq_refl). congruence. }
    unfold find_nearest_index. rewrite normalize_none by auto.
    rewrite inside_iff in H by auto. unfold is_regular in Hr.
    destruct (a_cont a) as [|asc pts|] eqn:E; [destruct W| |discriminate].
    simpl c_find_index. destruct (irr_find_spec asc pts x false W) as (r & -> & [(-> & _)|(_ & N)]).
    + cbn [obind]. rewrite Hc', andb_false_r. reflexivity.
    + exfalso. apply H. specialize (N eq_refl). unfold lo, hi. simpl c_asc. simpl c_size.
      destruct asc; lra.
Qed.

Lemma regular_outside a x v0 inc :
  axis_ok a -> a_circle a = None -> increment a = Ok inc -> at_index a 0 v0 ->
  find_nearest_index a x false = Ok (-1) <->
  ((x - v0) / inc <= - (1#2) \/ inject_Z (len a) - (1#2) <= (x - v0) / inc)%Q.
Proof.
  intros OK Hc Hi H0. assert (W := proj1 OK).
  assert (Hc' : a_is_circle a = false).
  { destruct OK as (_ & _ & C2). destruct (a_is_circle a); auto. specialize (C2 eq_refl). congruence. }
  apply at_index_iff in H0; auto. destruct H0 as [Hn ->].
  unfold find_nearest_index. rewrite normalize_none by auto.
  unfold increment in Hi. unfold len in *.
  destruct (a_cont a) as [|asc pts|asc n s st inv] eqn:E; try discriminate.
  injection Hi as <-. simpl c_find_index. cbn [obind]. rewrite Hc', andb_false_r.
  destruct W as (_ & Hst & Hinv & _). simpl c_size in *.
  unfold reg_find_index.
  assert (P : ((x - s) * inv == (x - fval (CReg asc n s st inv) 0) / st)%Q).
  { assert (EI : (inv == 1 / st)%Q) by (rewrite <- Hinv; field; auto).
    unfold fval; simpl. rewrite EI. change (inject_Z 0) with 0%Q. field. auto. }
  rewrite (round_away_compat _ _ P).
  set (p := ((x - fval (CReg asc n s st inv) 0) / st)%Q) in *. clearbody p.
  assert (Hn1 : (1 <= inject_Z n)%Q) by (change 1%Q with (inject_Z 1); apply inject_Z_le; lia).
  destruct (Qlt_le_dec p 0) as [Hp|Hp].
  - destruct (round_away_neg p Hp) as [A B].
    destruct (Z.ltb_spec (round_away p) 0) as [L|L].
    + split; auto. intros _. left.
      assert (inject_Z (round_away p) <= inject_Z (-1))%Q as L1 by (apply inject_Z_le; lia).
      change (inject_Z (-1)) with (-(1))%Q in L1. lra.
    + assert (inject_Z 0 <= inject_Z (round_away p))%Q as L1 by (apply inject_Z_le; lia).
      change (inject_Z 0) with 0%Q in L1.
      assert (round_away p < 1) as L2.
      { apply inject_Z_lt_inv. change (inject_Z 1) with 1%Q. lra. }
      rewrite Z.geb_leb. destruct (Z.leb_spec n (round_away p)); [lia|].
      split; [intro X; injection X; lia|]. intros [X|X]; exfalso; lra.
  - destruct (round_away_nonneg p Hp) as [A B].
    assert (-1 < round_away p) as L2.
    { apply inject_Z_lt_inv. change (inject_Z (-1)) with (-(1))%Q. lra. }
    destruct (Z.ltb_spec (round_away p) 0) as [L|L]; [lia|].
    rewrite Z.geb_leb. destruct (Z.leb_spec n (round_away p)) as [G|G].
    + split; auto. intros _. right. assert (X := inject_Z_le _ _ G). lra.
    + split; [intro X; injection X; lia|].
      assert (X := inject_Z_succ_le _ _ G). intros [Y|Y]; exfalso; lra.
Qed.

(** ** Nearest index on the circle *)
(** Integer positions: the nearest integer is nearer than any other integer. *)
Lemma half_integer_nearest (p : Q) (m k : Z) :
  (Qabs (p - inject_Z k) <= 1#2)%Q -> (Qabs (p - inject_Z k) <= Qabs (p - inject_Z m))%Q.
Proof.
  intro H. destruct (Z.eq_dec m k) as [->|Hne]; [apply Qle_refl|].
  apply Qabs_Qle_condition in H. destruct H as [H1 H2].
  apply Qabs_case; intro S1; apply Qabs_case; intro S2;
    destruct (Z.lt_ge_cases m k) as [L|L];
    [assert (G := inject_Z_succ_le m k L)|assert (G := inject_Z_succ_le k m ltac:(lia))
    |assert (G := inject_Z_succ_le m k L)|assert (G := inject_Z_succ_le k m ltac:(lia))
    |assert (G := inject_Z_succ_le m k L)|assert (G := inject_Z_succ_le k m ltac:(lia))
    |assert (G := inject_Z_succ_le m k L)|assert (G := inject_Z_succ_le k m ltac:(lia))]; lra.
Qed.

Lemma nearest_circle_regular a x inc :
  axis_ok a -> a_is_circle a = true -> is_ascending a = true ->
  increment a = Ok inc -> (inc * inject_Z (len a) == 360)%Q ->
  exists r, find_nearest_index a x false = Ok r /\ nearest_on_circle a x r.
Proof.
  intros OK Hci Hasc Hi Hfull. assert (W := proj1 OK). assert (Hc := proj2 (proj2 OK) Hci).
  destruct (normalize_angle_axis a x W Hc) as ((N1 & N2) & N3 & N4).
  unfold find_nearest_index. set (y := normalize_coordinate a x) in *. clearbody y.
  destruct (c_min_max_value _ W) as [-> ->]. fold (lo (a_cont a)) (hi (a_cont a)).
  rewrite Hci. unfold increment in Hi. unfold is_ascending in Hasc.
  assert (AT := fun i v => at_index_iff a i v W).
  unfold len in *. unfold nearest_on_circle.
  destruct (a_cont a) as [|asc pts|asc n s st inv] eqn:E; try discriminate.
  injection Hi as <-. simpl in Hasc. subst asc. simpl c_size in *.
  destruct W as (Hn & Hst & Hinv & Hpos).
  assert (Hst0 : (0 < st)%Q).
  { destruct (Q_dec st 0) as [[Q1|Q1]|Q1]; auto; [|tauto]. exfalso.
    assert (0 < inject_Z n)%Q by (change 0%Q with (inject_Z 0); apply inject_Z_lt; lia). nra. }
  unfold lo, hi in *. simpl c_asc in *. simpl c_size in *.
  set (f := fval (CReg true n s st inv)) in *.
  assert (Hf : forall i, f i = (s + inject_Z i * st)%Q) by reflexivity.
  cbv iota in N1, N2 |- *.
  simpl c_find_index. cbn [obind]. unfold reg_find_index.
  set (p := ((y - s) * inv)%Q) in *.
  assert (Hy : (y == s + p * st)%Q).
  { unfold p. assert ((y - s) * inv * st == (y - s) * (inv * st))%Q as -> by ring.
    rewrite Hinv. ring. }
  clearbody p.
  assert (Hp0 : (0 <= p)%Q).
  { rewrite (Hf 0) in N1. change (inject_Z 0) with 0%Q in N1.
    destruct (Qlt_le_dec p 0); auto. exfalso. nra. }
  assert (Hpn : (p < inject_Z n)%Q).
  { rewrite (Hf 0) in N2. change (inject_Z 0) with 0%Q in N2.
    destruct (Qlt_le_dec p (inject_Z n)) as [|Q1]; auto. exfalso.
    assert (inject_Z n * st <= p * st)%Q by (apply Qmult_le_compat_r; lra). lra. }
  destruct (round_away_nonneg p Hp0) as [A B].
  assert (L2 : -1 < round_away p).
  { apply inject_Z_lt_inv. change (inject_Z (-1)) with (-(1))%Q. lra. }
  destruct (Z.ltb_spec (round_away p) 0); [lia|].
  (* distance from the integer position [q] with [m] turns *)
  destruct N3 as [t Ht].
  assert (Dist : forall q m, (Qabs (x - f q + inject_Z m * 360) == Qabs (p - inject_Z (q - n * (m - t))) * st)%Q).
  { intros q m. rewrite <- (Qabs_pos st) at 1 by lra. rewrite <- Qabs_Qmult.
    apply Qabs_wd. rewrite Hf. unfold Z.sub. rewrite !inject_Z_plus, !inject_Z_opp, inject_Z_mult, inject_Z_plus, inject_Z_opp.
    rewrite <- Hfull. rewrite <- Hfull in Ht. assert (Hx : (x == y - inject_Z t * (st * inject_Z n))%Q) by lra.
    rewrite Hx, Hy. ring. }
  assert (Win : forall r q, 0 <= r < n -> (exists m, q = r - n * (m - t)) ->
     (Qabs (p - inject_Z q) <= 1#2)%Q ->
     exists v, at_index a r v /\ exists k : Z, forall j w m, at_index a j w ->
       (Qabs (x - v + inject_Z k * 360) <= Qabs (x - w + inject_Z m * 360))%Q).
  { intros r q Hr [m ->] Hq. exists (f r). split; [apply AT; auto|].
    exists m. intros j w m' Hj. apply AT in Hj. destruct Hj as [Hj ->]. fold f.
    rewrite !Dist. apply Qmult_le_compat_r; [|lra]. apply half_integer_nearest. exact Hq. }
  rewrite Z.geb_leb. destruct (Z.leb_spec n (round_away p)) as [G|G].
  - (* beyond the last half cell: the code compares the two ends *)
    assert (G' := inject_Z_le _ _ G). simpl (-1 =? -1). cbn [andb].
    change (c_size (CReg true n s st inv)) with n.
    exists 0. split.
    + destruct (Qltb_spec (y - f (n - 1)%Z) (f 0%Z + 360 - y)) as [Q1|Q1]; auto. exfalso.
      rewrite !Hf in Q1. unfold Z.sub in Q1. rewrite inject_Z_plus in Q1.
      change (inject_Z 0) with 0%Q in Q1. change (inject_Z (-(1))) with (-(1))%Q in Q1.
      assert ((inject_Z n - (1#2)) * st <= p * st)%Q by (apply Qmult_le_compat_r; lra). lra.
    + apply (Win 0 n); [lia| |].
      * exists (t - 1). ring.
      * rewrite Qabs_neg by lra. lra.
  - exists (round_away p). destruct (Z.eqb_spec (round_away p) (-1)); [lia|]. cbn [andb]. split; auto.
    apply (Win (round_away p) (round_away p)); [lia| |].
    + exists t. ring.
    + apply Qabs_case; intros; lra.
Qed.
