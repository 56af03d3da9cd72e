From Verif Require Import Base BaseProofs MathModel.
Open Scope Z_scope.

Lemma rem_int_mod x y : y <> 0 -> rem_int x y = x mod y.
Proof.
  intro Hy. unfold rem_int.
  assert (Hr := Z.rem_bound_abs x y Hy).
  assert (Heq := Z.quot_rem' x y).
  set (r := Z.rem x y) in *.
  set (q := Z.quot x y) in *.
  destruct (Z.eqb_spec r 0) as [E|E]; simpl.
  - (* exact multiple *)
    rewrite E in *. symmetry. apply Z.mod_divide; auto. exists q. lia.
  - assert (Hs : (Z.lxor r y <? 0) = negb (Bool.eqb (r <? 0) (y <? 0))).
    { assert (HL := Z.lxor_nonneg r y).
      destruct (Z.ltb_spec (Z.lxor r y) 0) as [L|L];
      destruct (Z.ltb_spec r 0); destruct (Z.ltb_spec y 0); simpl; auto; lia. }
    rewrite Hs.
    destruct (Z.ltb_spec r 0); destruct (Z.ltb_spec y 0); simpl.
    + apply Z.mod_unique with (q := q); lia.
    + apply Z.mod_unique with (q := q - 1); lia.
    + apply Z.mod_unique with (q := q - 1); lia.
    + apply Z.mod_unique with (q := q); lia.
Qed.

Lemma rem_int_range x y : 0 < y -> 0 <= rem_int x y < y.
Proof. intro H. rewrite rem_int_mod by lia. apply Z.mod_pos_bound; lia. Qed.

Lemma rem_int_small x y : 0 <= x < y -> rem_int x y = x.
Proof. intro H. rewrite rem_int_mod by lia. apply Z.mod_small; lia. Qed.

Lemma inject_Z_1 : (inject_Z 1 == 1)%Q. Proof. reflexivity. Qed.

(** [round_even] is within half a unit. *)
Lemma round_even_spec q :
  (inject_Z (round_even q) - (1#2) <= q)%Q /\ (q <= inject_Z (round_even q) + (1#2))%Q.
Proof.
  unfold round_even. destruct (Qfloor_spec q) as [H1 H2].
  destruct (Qltb_spec (q - inject_Z (Qfloor q)) (1#2)); [split; lra|].
  destruct (Qltb_spec (1#2) (q - inject_Z (Qfloor q))).
  - rewrite inject_Z_plus. change (inject_Z 1) with 1%Q. split; lra.
  - destruct (Z.even (Qfloor q)).
    + split; lra.
    + rewrite inject_Z_plus. change (inject_Z 1) with 1%Q. split; lra.
Qed.

Lemma rem_Q_spec x y : (0 < y)%Q ->
  (0 <= rem_Q x y)%Q /\ (rem_Q x y < y)%Q /\
  exists k : Z, (rem_Q x y == x - inject_Z k * y)%Q.
Proof.
  intro Hy. unfold rem_Q, std_remainder.
  set (n := round_even (x / y)).
  destruct (round_even_spec (x / y)) as [H1 H2]. fold n in H1, H2.
  assert (Hx : (x == (x / y) * y)%Q) by (field; lra).
  set (t := (x / y)%Q) in *.
  assert (A : ((inject_Z n - (1#2)) * y <= t * y)%Q) by (apply Qmult_le_compat_r; lra).
  assert (B : (t * y <= (inject_Z n + (1#2)) * y)%Q) by (apply Qmult_le_compat_r; lra).
  destruct (Qltb_spec (x - inject_Z n * y) 0).
  - repeat split; try lra.
    exists (n + -1). rewrite inject_Z_plus. change (inject_Z (-1)) with (-(1))%Q. ring.
  - repeat split; try lra. exists n. lra.
Qed.

Lemma normalize_angle_spec x mn c : (0 < c)%Q ->
  (mn <= normalize_angle x mn c)%Q /\ (normalize_angle x mn c < mn + c)%Q /\
  exists k : Z, (normalize_angle x mn c == x + inject_Z k * c)%Q.
Proof.
  intro Hc. unfold normalize_angle.
  destruct (rem_Q_spec (x - mn) c Hc) as (H1 & H2 & k & Hk).
  repeat split; try lra.
  exists (- k). rewrite inject_Z_opp. lra.
Qed.

(** Two representatives in the same half-open turn are equal. *)
Lemma turn_unique (a b mn c : Q) (k : Z) : (0 < c)%Q ->
  (mn <= a < mn + c)%Q -> (mn <= b < mn + c)%Q ->
  (a == b + inject_Z k * c)%Q -> (a == b)%Q.
Proof.
  intros Hc [Ha1 Ha2] [Hb1 Hb2] He.
  assert (k = 0) as ->.
  { destruct (Z.lt_trichotomy k 0) as [H|[H|H]]; auto; exfalso.
    - assert (inject_Z k <= -1)%Q as L by (change (-1)%Q with (inject_Z (-1)); rewrite <- Zle_Qle; lia).
      assert (inject_Z k * c <= -1 * c)%Q by (apply Qmult_le_compat_r; lra). lra.
    - assert (1 <= inject_Z k)%Q as L by (change 1%Q with (inject_Z 1); rewrite <- Zle_Qle; lia).
      assert (1 * c <= inject_Z k * c)%Q by (apply Qmult_le_compat_r; lra). lra. }
  change (inject_Z 0) with 0%Q in He. lra.
Qed.

Lemma normalize_angle_in_place x mn c : (0 < c)%Q ->
  (mn <= x < mn + c)%Q -> (normalize_angle x mn c == x)%Q.
Proof.
  intros Hc Hx. destruct (normalize_angle_spec x mn c Hc) as (H1 & H2 & k & Hk).
  eapply turn_unique; eauto.
Qed.

Lemma round_away_nonneg q : (0 <= q)%Q ->
  (inject_Z (round_away q) - (1#2) <= q)%Q /\ (q < inject_Z (round_away q) + (1#2))%Q.
Proof.
  intro H. unfold round_away. assert (E : Qle_bool 0 q = true) by now apply Qle_bool_iff.
  rewrite E. destruct (Qfloor_spec (q + (1#2))). split; lra.
Qed.

Lemma round_away_neg q : (q < 0)%Q ->
  (inject_Z (round_away q) - (1#2) < q)%Q /\ (q <= inject_Z (round_away q) + (1#2))%Q.
Proof.
  intro H. unfold round_away. assert (E : Qle_bool 0 q = false) by now apply Qleb_false.
  rewrite E. rewrite inject_Z_opp. destruct (Qfloor_spec (- q + (1#2))). split; lra.
Qed.

Lemma round_away_compat p q : (p == q)%Q -> round_away p = round_away q.
Proof.
  intro E. unfold round_away.
  replace (Qle_bool 0 q) with (Qle_bool 0 p).
  - destruct (Qle_bool 0 p).
    + apply Qfloor_comp. rewrite E. reflexivity.
    + f_equal. apply Qfloor_comp. rewrite E. reflexivity.
  - destruct (Qleb_spec 0 p); destruct (Qleb_spec 0 q); auto; exfalso; lra.
Qed.
