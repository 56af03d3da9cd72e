(** Axes built from evenly spaced increasing values: what is stored and what
    [find_index] answers on the values themselves. *)
From Verif Require Import Base BaseProofs MathModel MathProofs AxisModel.
Open Scope Z_scope.

(** [L] is s, s + d, s + 2 d... *)
Fixpoint uniform (s d : Q) (L : list Q) : Prop :=
  match L with [] => True | x :: t => (x == s)%Q /\ uniform (s + d) d t end.

Lemma uniform_comp : forall L s s' d, (s == s')%Q -> uniform s d L -> uniform s' d L.
Proof.
  induction L as [|x t IH]; intros s s' d E U; [exact I|]. destruct U as [A B]. split; [lra|]. apply (IH (s + d)%Q); [lra|exact B].
Qed.

Lemma uniform_nth : forall L s d i x, uniform s d L -> znth L i = Some x -> (x == s + inject_Z i * d)%Q.
Proof.
  induction L as [|y t IH]; intros s d i x U H.
  - apply znth_Some in H. unfold zlen in H. cbn in H. lia.
  - destruct U as [A B]. pose proof (znth_Some _ _ _ H) as R. destruct (Z.eq_dec i 0) as [->|N].
    + cbn in H. assert (y = x) by congruence. subst. rewrite A. change (inject_Z 0) with 0%Q. ring.
    + assert (H' : znth t (i - 1) = Some x).
      { unfold znth in *. destruct (Z.ltb_spec i 0); [lia|]. destruct (Z.ltb_spec (i - 1) 0); [lia|].
        replace (Z.to_nat i) with (S (Z.to_nat (i - 1))) in H by lia. exact H. }
      rewrite (IH _ _ _ _ B H'). replace i with ((i - 1) + 1) at 2 by ring. rewrite inject_Z_plus. change (inject_Z 1) with 1%Q. ring.
Qed.

Lemma uniform_last : forall L s d, uniform s d L -> L <> [] -> (last L 0 == s + inject_Z (zlen L - 1) * d)%Q.
Proof.
  induction L as [|x t IH]; intros s d U N; [congruence|]. destruct U as [A B]. destruct t as [|y t].
  - cbn [last]. unfold zlen. cbn [length]. change (Z.of_nat 1 - 1) with 0. change (inject_Z 0) with 0%Q. rewrite A. ring.
  - change (last (x :: y :: t) 0%Q) with (last (y :: t) 0%Q). rewrite (IH _ _ B) by discriminate. unfold zlen. cbn [length].
    rewrite !Nat2Z.inj_succ. replace (Z.succ (Z.succ (Z.of_nat (length t))) - 1) with ((Z.succ (Z.of_nat (length t)) - 1) + 1) by ring.
    rewrite inject_Z_plus. change (inject_Z 1) with 1%Q. ring.
Qed.

Lemma Qltb_t : forall x y, (x < y)%Q -> Qltb x y = true.
Proof. intros. unfold Qltb. destruct (Qle_bool y x) eqn:E; [apply Qle_bool_iff in E; lra|reflexivity]. Qed.
Lemma Qltb_f : forall x y, (y <= x)%Q -> Qltb x y = false.
Proof. intros. unfold Qltb. destruct (Qle_bool y x) eqn:E; [reflexivity|]. apply Qle_bool_iff in H. congruence. Qed.

Lemma uniform_dir : forall L s d, (0 < d)%Q -> uniform s d L ->
  strictly_monotone_dir true L = true /\ has_adjacent_equal L = false /\ is_sorted Qltb L = true.
Proof.
  induction L as [|x t IH]; intros s d D U; [repeat split|]. destruct U as [A B]. destruct (IH _ _ D B) as (I1 & I2 & I3).
  destruct t as [|y t]; [repeat split|]. pose proof (proj1 B) as C.
  cbn [strictly_monotone_dir has_adjacent_equal is_sorted] in *. rewrite Qltb_t by lra. rewrite (Qltb_f y x) by lra.
  destruct (Qeq_bool x y) eqn:E; [apply Qeq_bool_eq in E; lra|]. cbn [andb orb negb]. repeat split; assumption.
Qed.

Lemma uniform_lower : forall L s d i x, (0 < d)%Q -> uniform s d L -> 0 <= i < zlen L -> (x == s + inject_Z i * d)%Q ->
  lower_bound Qltb L x = i.
Proof.
  induction L as [|y t IH]; intros s d i x D U R E; [unfold zlen in R; cbn in R; lia|]. destruct U as [A B].
  cbn [lower_bound]. destruct (Z.eq_dec i 0) as [->|N].
  - rewrite Qltb_f; [reflexivity|]. change (inject_Z 0) with 0%Q in E. lra.
  - assert (P : (0 < inject_Z i * d)%Q).
    { apply Qmult_lt_0_compat; [|exact D]. change 0%Q with (inject_Z 0). rewrite <- Zlt_Qlt. lia. }
    rewrite Qltb_t by lra. rewrite (IH (s + d)%Q d (i - 1)); [ring|exact D|exact B| |].
    + unfold zlen in *. cbn [length] in R. lia.
    + rewrite E. replace i with ((i - 1) + 1) at 1 by ring. rewrite inject_Z_plus. change (inject_Z 1) with 1%Q. ring.
Qed.

Lemma is_same_eq : forall a b eps, (a == b)%Q -> (0 <= eps)%Q -> is_same a b eps = true.
Proof.
  intros a b eps E H. unfold is_same. replace (Qle_bool (Qabs (a - b)) eps) with true; [reflexivity|].
  symmetry. apply Qle_bool_iff. assert (Z : (a - b == 0)%Q) by lra. rewrite Z. exact H.
Qed.

Lemma uniform_steps : forall L s d inc eps, (inc == d)%Q -> (0 <= eps)%Q -> uniform s d L -> all_steps_same inc eps L = true.
Proof.
  induction L as [|x t IH]; intros s d inc eps E H U; [reflexivity|]. destruct U as [A B]. destruct t as [|y t]; [reflexivity|].
  cbn [all_steps_same] in *. rewrite is_same_eq; [|pose proof (proj1 B); lra|exact H]. apply (IH _ _ _ _ E H B).
Qed.

Lemma round_away_Z : forall i q, (q == inject_Z i)%Q -> 0 <= i -> round_away q = i.
Proof.
  intros i q E H. assert (P : (0 <= q)%Q) by (rewrite E; change 0%Q with (inject_Z 0); rewrite <- Zle_Qle; exact H).
  destruct (round_away_nonneg q P) as [A B].
  assert (C : (inject_Z (round_away q) < inject_Z (i + 1))%Q) by (rewrite inject_Z_plus; change (inject_Z 1) with 1%Q; lra).
  assert (D : (inject_Z i < inject_Z (round_away q + 1))%Q) by (rewrite inject_Z_plus; change (inject_Z 1) with 1%Q; lra).
  rewrite <- Zlt_Qlt in C, D. lia.
Qed.

(** The axis of at least two such values spanning less than a turn. *)
Lemma uniform_axis : forall L s d eps circ, (0 < d)%Q -> (0 <= eps)%Q -> uniform s d L -> 2 <= zlen L ->
  (inject_Z (zlen L) * d <= 360)%Q ->
  exists a, axis_of_values L eps circ = Ok a /\ c_size (a_cont a) = zlen L /\ a_circle a = (if circ then Some 360%Q else None) /\
    (exists l, slice a 0 (zlen L) = Ok l /\ zlen l = zlen L /\ uniform s d l) /\
    forall i x, 0 <= i < zlen L -> (x == s + inject_Z i * d)%Q -> find_nearest_index a x false = Ok i.
Proof.
  intros L s d eps circ D He U N Span.
  destruct (uniform_dir L s d D U) as (M1 & M2 & M3).
  destruct L as [|e0 [|e1 t]]; try (unfold zlen in N; cbn in N; lia). set (L := e0 :: e1 :: t) in *.
  assert (E0 : (e0 == s)%Q) by (apply U). assert (E1 : (e1 == s + d)%Q) by (apply U).
  assert (La : (last L 0 == s + inject_Z (zlen L - 1) * d)%Q) by (apply uniform_last; [exact U|discriminate]).
  assert (PN : (0 < inject_Z (zlen L - 1))%Q) by (change 0%Q with (inject_Z 0); rewrite <- Zlt_Qlt; lia).
  assert (FA : first_ascending L = true) by (unfold first_ascending, L; apply Qltb_t; lra).
  assert (NL : normalize_longitude 360 L = L) by (unfold normalize_longitude; rewrite FA, M1; reflexivity).
  unfold axis_of_values. replace (if circ then normalize_longitude 360 L else L) with L by (destruct circ; [symmetry; exact NL|reflexivity]).
  unfold init_from_values.
  assert (ND : forall a x i, a_circle a = (if circ then Some 360%Q else None) -> (exists m, c_min (a_cont a) = Some m /\ (m == s)%Q) -> 0 <= i < zlen L ->
    (x == s + inject_Z i * d)%Q -> normalize_coordinate a x = x).
  { intros a x i Ec (m & Em & Es) R Ex. unfold normalize_coordinate. rewrite Em. unfold normalize_coordinate_min. rewrite Ec.
    destruct circ; [|reflexivity].
    assert (P : (inject_Z i * d <= inject_Z (zlen L - 1) * d)%Q).
    { apply Qmult_le_compat_r; [rewrite <- Zle_Qle; lia|lra]. }
    assert (P0 : (0 <= inject_Z i * d)%Q).
    { apply Qmult_le_0_compat; [change 0%Q with (inject_Z 0); rewrite <- Zle_Qle; lia|lra]. }
    assert (SL : (inject_Z (zlen L - 1) * d < 360)%Q).
    { unfold Z.sub. rewrite inject_Z_plus. change (inject_Z (-(1))) with (-(1))%Q. lra. }
    destruct (Qle_bool (m + 360) x) eqn:X; [apply Qle_bool_iff in X; lra|]. rewrite Qltb_f by lra. reflexivity. }
  assert (Inc : ((last L 0 - e0) / inject_Z (zlen L - 1) == d)%Q).
  { rewrite La, E0. field. lra. }
  destruct (is_evenly_spaced L eps) eqn:Ev.
  - (* regular *)
    change (hd 0%Q L) with e0. unfold mk_regular. destruct (Z.eqb_spec (zlen L) 0) as [Y|Y]; [lia|].
    destruct (Qeq_bool e0 (last L 0%Q)) eqn:Q.
    { apply Qeq_bool_eq in Q. assert (P : (0 < inject_Z (zlen L - 1) * d)%Q) by (apply Qmult_lt_0_compat; assumption). lra. }
    destruct (Z.eqb_spec (zlen L) 1) as [Y1|Y1]; [lia|].
    set (st := ((last L 0 - e0) / inject_Z (zlen L - 1))%Q) in *. cbn [obind].
    assert (Asc : calc_ascending (zlen L) (Some (e0 + inject_Z 0 * st)%Q) (Some (e0 + inject_Z 1 * st)%Q) = true).
    { unfold calc_ascending. destruct (zlen L <? 2); [reflexivity|]. apply Qltb_t. change (inject_Z 0) with 0%Q. change (inject_Z 1) with 1%Q. lra. }
    rewrite Asc. unfold finish_axis. cbn [c_size c_is_monotonic negb]. destruct (Z.eqb_spec (zlen L) 0) as [Y2|Y2]; [lia|].
    eexists. split; [reflexivity|]. cbn [a_cont c_size a_circle]. split; [reflexivity|]. split; [reflexivity|]. split.
    + unfold slice. cbn [a_cont c_size]. rewrite Z.gtb_ltb, Z.add_0_l, (Z.ltb_irrefl (zlen L)). cbn [orb]. change (0 <? 0) with false. cbn [orb].
      eexists. split; [reflexivity|]. split; [unfold zlen; rewrite map_length, seq_length; lia|].
      assert (G : forall n k, uniform (s + inject_Z (Z.of_nat k) * d) d
         (map (fun k0 => (e0 + inject_Z (0 + Z.of_nat k0) * st)%Q) (seq k n))).
      { induction n as [|n IH]; intro k; [exact I|]. cbn [seq map uniform]. split.
        - rewrite Z.add_0_l, Inc, E0. reflexivity.
        - apply (uniform_comp _ (s + inject_Z (Z.of_nat (S k)) * d)%Q); [|apply IH].
          rewrite Nat2Z.inj_succ. unfold Z.succ. rewrite inject_Z_plus. change (inject_Z 1) with 1%Q. ring. }
      apply (uniform_comp _ (s + inject_Z (Z.of_nat 0) * d)%Q); [cbn [Z.of_nat]; change (inject_Z 0) with 0%Q; ring|apply G].
    + intros i x R Ex. unfold find_nearest_index.
      rewrite (ND _ x i); [|reflexivity| |exact R|exact Ex].
      2:{ eexists. split; [reflexivity|]. cbn [a_cont c_asc]. change (inject_Z 0) with 0%Q. rewrite E0. ring. }
      cbn [a_cont c_find_index obind]. unfold reg_find_index.
      assert (Ri : round_away ((x - e0) * (1 / st)) = i).
      { apply round_away_Z; [|lia]. rewrite Ex, E0, Inc. field. lra. }
      rewrite Ri. destruct (Z.ltb_spec i 0); [lia|]. rewrite Z.geb_leb. destruct (Z.leb_spec (zlen L) i); [lia|].
      destruct (Z.eqb_spec i (-1)); [lia|reflexivity].
  - (* irregular *)
    unfold mk_irregular. destruct (Z.eqb_spec (zlen L) 0) as [Y|Y]; [lia|]. cbn [obind].
    assert (Asc : calc_ascending (zlen L) (znth L 0) (znth L 1) = true).
    { unfold calc_ascending. destruct (zlen L <? 2); [reflexivity|]. unfold znth, L. cbn [Z.ltb Z.compare Z.to_nat Pos.to_nat nth_error].
      cbn. apply Qltb_t. lra. }
    rewrite Asc. unfold finish_axis. cbn [c_size c_is_monotonic cmp_of]. destruct (Z.eqb_spec (zlen L) 0) as [Y2|Y2]; [lia|].
    rewrite M2, M3. cbn [negb andb].
    eexists. split; [reflexivity|]. cbn [a_cont c_size a_circle]. split; [reflexivity|]. split; [reflexivity|]. split.
    + unfold slice. cbn [a_cont c_size]. rewrite Z.gtb_ltb, Z.add_0_l, (Z.ltb_irrefl (zlen L)). cbn [orb]. change (0 <? 0) with false. cbn [orb].
      exists L. split; [|split; [reflexivity|exact U]]. f_equal. cbn [Z.to_nat skipn]. unfold zlen. rewrite Nat2Z.id. apply firstn_all.
    + intros i x R Ex. unfold find_nearest_index.
      rewrite (ND _ x i); [|reflexivity|exists e0; split; [reflexivity|exact E0]|exact R|exact Ex].
      cbn [a_cont c_find_index]. unfold irr_find_index. cbn [cmp_of].
      rewrite (uniform_lower L s d i x D U R Ex).
      destruct (Z.eqb_spec i 0) as [->|Ni].
      * unfold znth, L at 1. cbn [Z.ltb Z.compare Z.to_nat nth_error]. rewrite Qltb_f; [reflexivity|].
        change (inject_Z 0) with 0%Q in Ex. lra.
      * destruct (Z.eqb_spec i (zlen L)) as [Y3|Y3]; [lia|].
        destruct (znth_in_range L (i - 1) ltac:(lia)) as (u & Hu). destruct (znth_in_range L i R) as (v & Hv).
        rewrite Hu, Hv. pose proof (uniform_nth _ _ _ _ _ U Hv) as Ev'. cbn [obind].
        assert (Z0 : (x - v == 0)%Q) by lra. rewrite (Qltb_f (Qabs (x - u))).
        -- destruct (Z.eqb_spec i (-1)); [lia|reflexivity].
        -- rewrite Z0. apply Qabs_nonneg.
Qed.
