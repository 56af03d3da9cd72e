From Verif Require Import Base BaseProofs MathModel MathProofs AxisModel AxisSpec AxisProofs AxisProofs2 AxisProofs3.
Open Scope Z_scope.

(** ** Windows *)
Lemma span_cons from n : 0 <= n -> span from (n + 1) = from :: span (from + 1) n.
Proof.
  intro H. unfold span. replace (Z.to_nat (n + 1)) with (S (Z.to_nat n)) by lia.
  simpl. f_equal. lia. rewrite <- seq_shift, map_map. apply map_ext. intro; lia.
Qed.

Lemma span_app from n m : 0 <= n -> 0 <= m -> span from (n + m) = span from n ++ span (from + n) m.
Proof.
  intros H1 H2. unfold span. rewrite Z2Nat.inj_add by lia. rewrite seq_app, map_app. f_equal.
  simpl. replace (Z.to_nat n) with (0 + Z.to_nat n)%nat at 1 by lia.
  revert H1. generalize (Z.to_nat m). intro k. intro H1.
  assert (G : forall b, map (fun j : nat => from + Z.of_nat j) (seq b k) =
                        map (fun j : nat => from + Z.of_nat b + Z.of_nat j) (seq 0 k)).
  { clear. induction k as [|k IH]; intro b; simpl; auto. f_equal; [lia|].
    rewrite IH. rewrite <- seq_shift, map_map. apply map_ext. intro; lia. }
  rewrite G. apply map_ext. intro; lia.
Qed.

Lemma span_1 from : span from 1 = [from].
Proof. unfold span. simpl. f_equal. lia. Qed.

Lemma all_some_app {A} (l r : list (option A)) :
  all_some (l ++ r) = match all_some l, all_some r with Some a, Some b => Some (a ++ b) | _, _ => None end.
Proof.
  induction l as [|[x|] t IH]; simpl.
  - destruct (all_some r); auto.
  - rewrite IH. destruct (all_some t), (all_some r); auto.
  - reflexivity.
Qed.

Lemma before_redirect circ b n i0 shift :
  0 < n -> 0 <= i0 < n -> 0 <= shift < n ->
  window_before circ b n i0 shift = redirect circ b n (i0 - shift).
Proof.
  intros Hn Hi Hs. unfold window_before, redirect.
  destruct (Z.ltb_spec (i0 - shift) 0) as [L|L].
  - destruct (Z.leb_spec 0 (i0 - shift)); [lia|]. cbn [andb].
    destruct circ; [f_equal; apply rem_int_mod; lia|].
    destruct b; auto.
    + f_equal. rewrite rem_int_mod by lia.
      replace (n + (i0 - shift)) with ((i0 - shift) + 1 * n) by ring. apply Z.mod_add. lia.
    + f_equal. rewrite rem_int_mod by lia. apply Z.mod_small. lia.
  - destruct (Z.leb_spec 0 (i0 - shift)); [|lia]. destruct (Z.ltb_spec (i0 - shift) n); [|lia]. reflexivity.
Qed.

Lemma after_redirect circ b n i1 shift :
  0 < n -> 0 <= i1 < n -> 0 <= shift < n ->
  window_after circ b n i1 shift = redirect circ b n (i1 + shift).
Proof.
  intros Hn Hi Hs. unfold window_after, redirect. rewrite Z.geb_leb.
  destruct (Z.leb_spec n (i1 + shift)) as [L|L].
  - destruct (Z.leb_spec 0 (i1 + shift)); [|lia]. destruct (Z.ltb_spec (i1 + shift) n); [lia|]. cbn [andb].
    destruct circ; [f_equal; apply rem_int_mod; lia|].
    destruct b; auto.
    + destruct (Z.ltb_spec (i1 + shift) 0); [lia|auto].
    + f_equal. apply rem_int_mod. lia.
    + f_equal. rewrite rem_int_mod by lia. rewrite Z.mod_small by lia.
      destruct (Z.ltb_spec (i1 + shift) 0); lia.
  - destruct (Z.leb_spec 0 (i1 + shift)); [|lia]. destruct (Z.ltb_spec (i1 + shift) n); [|lia]. reflexivity.
Qed.

Lemma window_loop_spec circ b len i0 i1 :
  0 < len -> 0 <= i0 < len -> 0 <= i1 < len ->
  forall n shift l r, 0 <= shift -> shift + Z.of_nat n <= len ->
  window_loop n circ b len i0 i1 shift l r =
  match all_some (map (redirect circ b len) (span (i0 - shift - Z.of_nat n + 1) (Z.of_nat n))),
        all_some (map (redirect circ b len) (span (i1 + shift) (Z.of_nat n))) with
  | Some p, Some q => Some (p ++ l ++ r ++ q)
  | _, _ => None
  end.
Proof.
  intros Hl H0 H1. induction n as [|n IH]; intros shift l r Hs Hn.
  - simpl. rewrite app_nil_r. reflexivity.
  - cbn [window_loop]. rewrite before_redirect, after_redirect by lia.
    rewrite Nat2Z.inj_succ. unfold Z.succ.
    rewrite span_app by lia. rewrite (span_cons (i1 + shift)) by lia. rewrite span_1.
    replace (i0 - shift - (Z.of_nat n + 1) + 1 + Z.of_nat n) with (i0 - shift) by ring.
    rewrite map_app, all_some_app. cbn [map all_some].
    destruct (redirect circ b len (i0 - shift)) as [x|] eqn:E0; cycle 1.
    { destruct (all_some (map (redirect circ b len) (span (i0 - shift - (Z.of_nat n + 1) + 1) (Z.of_nat n)))); auto. }
    destruct (redirect circ b len (i1 + shift)) as [y|] eqn:E1; cycle 1.
    { destruct (all_some (map (redirect circ b len) (span (i0 - shift - (Z.of_nat n + 1) + 1) (Z.of_nat n)))); auto. }
    rewrite IH by lia.
    replace (i0 - (shift + 1) - Z.of_nat n + 1) with (i0 - shift - (Z.of_nat n + 1) + 1) by ring.
    replace (i1 + (shift + 1)) with (i1 + shift + 1) by ring.
    destruct (all_some (map (redirect circ b len) (span (i0 - shift - (Z.of_nat n + 1) + 1) (Z.of_nat n)))) as [p|]; auto.
    destruct (all_some (map (redirect circ b len) (span (i1 + shift + 1) (Z.of_nat n)))) as [q|]; auto.
    f_equal. rewrite <- !app_assoc. simpl. reflexivity.
Qed.

Lemma redirect_in circ b n i : 0 <= i < n -> redirect circ b n i = Some i.
Proof.
  intro H. unfold redirect. destruct (Z.leb_spec 0 i), (Z.ltb_spec i n); try lia. reflexivity.
Qed.

Lemma window_spec a x size b i0 i1 :
  axis_ok a -> 1 < len a -> 1 <= size <= len a ->
  find_indexes a x = Ok (Some (i0, i1)) ->
  find_indexes_window a x size b =
  Ok match all_some (map (redirect (a_is_circle a) b (len a))
                         (span (i0 - (size - 1)) size ++ span i1 size)) with
     | Some w => w | None => [] end.
Proof.
  intros OK Hl Hs Hf. unfold find_indexes_window.
  destruct (Z.eqb_spec size 0); [lia|]. rewrite Hf. cbn [obind].
  assert (R : 0 <= i0 < len a /\ 0 <= i1 < len a).
  { destruct (a_is_circle a) eqn:C.
    - destruct (find_indexes_circle a x OK Hl C) as (y & j0 & j1 & _ & E & [B|B]); rewrite E in Hf; injection Hf as -> ->.
      + destruct B as (v0 & v1 & A0 & A1 & _). apply at_index_iff in A0, A1; try apply OK. lia.
      + destruct B as ([[-> ->]|[-> ->]] & _); lia.
    - destruct OK as (W & [C1|C1] & C2) eqn:EO.
      + destruct (find_indexes_plain a x OK Hl C1) as (r & E & B). rewrite E in Hf. injection Hf as ->.
        destruct B as ((v0 & v1 & A0 & A1 & _) & _). apply at_index_iff in A0, A1; try apply OK. lia.
      + destruct (find_indexes_angle a x OK Hl C1 C) as (y & r & _ & E & B). rewrite E in Hf. injection Hf as ->.
        destruct B as (v0 & v1 & A0 & A1 & _). apply at_index_iff in A0, A1; try apply OK. lia. }
  fold (len a). rewrite window_loop_spec by (unfold len in *; lia).
  replace (Z.of_nat (Z.to_nat (size - 1))) with (size - 1) by lia.
  replace (i0 - 1 - (size - 1) + 1) with (i0 - (size - 1)) by ring.
  rewrite map_app, all_some_app.
  assert (S0 : span (i0 - (size - 1)) size = span (i0 - (size - 1)) (size - 1) ++ [i0]).
  { replace size with (size - 1 + 1) at 2 by ring. rewrite span_app, span_1 by lia.
    do 2 f_equal. ring. }
  assert (S1 : span i1 size = i1 :: span (i1 + 1) (size - 1)).
  { replace size with (size - 1 + 1) at 1 by ring. apply span_cons. lia. }
  rewrite S0, S1.
  rewrite map_app, all_some_app. cbn [map all_some]. rewrite !redirect_in by lia.
  destruct (all_some (map _ (span (i0 - (size - 1)) (size - 1)))) as [p|]; auto.
  destruct (all_some (map _ (span (i1 + 1) (size - 1)))) as [q|]; auto.
  f_equal. rewrite <- app_assoc. reflexivity.
Qed.

Lemma find_indexes_range a x i0 i1 :
  axis_ok a -> 1 < len a -> find_indexes a x = Ok (Some (i0, i1)) ->
  0 <= i0 < len a /\ 0 <= i1 < len a.
Proof.
  intros OK Hl Hf. destruct (a_is_circle a) eqn:C.
  - destruct (find_indexes_circle a x OK Hl C) as (y & j0 & j1 & _ & E & [B|B]); rewrite E in Hf; injection Hf as -> ->.
    + destruct B as (v0 & v1 & A0 & A1 & _). apply at_index_iff in A0, A1; try apply OK. lia.
    + destruct B as ([[-> ->]|[-> ->]] & _); lia.
  - assert (EO := OK). destruct EO as (W & [C1|C1] & C2).
    + destruct (find_indexes_plain a x OK Hl C1) as (r & E & B). rewrite E in Hf. injection Hf as ->.
      destruct B as ((v0 & v1 & A0 & A1 & _) & _). apply at_index_iff in A0, A1; try apply OK. lia.
    + destruct (find_indexes_angle a x OK Hl C1 C) as (y & r & _ & E & B). rewrite E in Hf. injection Hf as ->.
      destruct B as (v0 & v1 & A0 & A1 & _). apply at_index_iff in A0, A1; try apply OK. lia.
Qed.

(** Every index of the window is valid, for any half size, except with [kSym] on a
    non circular axis when the half size exceeds the number of points. *)
Lemma window_loop_range circ b len i0 i1 :
  1 < len -> 0 <= i0 < len -> 0 <= i1 < len ->
  forall n shift l r w, 0 <= shift ->
  (b = kSym -> circ = false -> shift + Z.of_nat n <= len) ->
  (forall i, In i l \/ In i r -> 0 <= i < len) ->
  window_loop n circ b len i0 i1 shift l r = Some w ->
  (length w = length l + length r + 2 * n)%nat /\ forall i, In i w -> 0 <= i < len.
Proof.
  intros Hl H0 H1. induction n as [|n IH]; intros shift l r w Hs Hb Hlr Hw.
  - simpl in Hw. injection Hw as <-. rewrite app_length. split; [lia|].
    intros i Hi. apply in_app_or in Hi. auto.
  - cbn [window_loop] in Hw.
    destruct (window_before circ b len i0 shift) as [x|] eqn:E0; [|discriminate].
    destruct (window_after circ b len i1 shift) as [y|] eqn:E1; [|discriminate].
    assert (Hx : 0 <= x < len).
    { unfold window_before in E0. destruct (Z.ltb_spec (i0 - shift) 0); [|injection E0; lia].
      destruct circ; [injection E0 as <-; apply rem_int_range; lia|].
      destruct b; try discriminate; injection E0 as <-; try lia; apply rem_int_range; lia. }
    assert (Hy : 0 <= y < len).
    { unfold window_after in E1. rewrite Z.geb_leb in E1.
      destruct (Z.leb_spec len (i1 + shift)); [|injection E1; lia].
      destruct circ; [injection E1 as <-; apply rem_int_range; lia|].
      destruct b; try discriminate; injection E1 as <-; try lia; try (apply rem_int_range; lia).
      specialize (Hb eq_refl eq_refl). rewrite rem_int_small by lia. lia. }
    apply IH in Hw; [|lia|intros Q1 Q2; specialize (Hb Q1 Q2); lia|].
    + rewrite app_length in Hw. simpl length in Hw. split; [lia|apply Hw].
    + intros i [[<-|Hi]|Hi]; auto. apply in_app_or in Hi. destruct Hi as [Hi|[<-|[]]]; auto.
Qed.

Lemma window_range a x size b w :
  axis_ok a -> 1 < len a -> 1 <= size ->
  (b = kSym -> a_is_circle a = false -> size <= len a) ->
  find_indexes_window a x size b = Ok w ->
  (w = [] \/ zlen w = 2 * size) /\ forall i, In i w -> 0 <= i < len a.
Proof.
  intros OK Hl Hs Hb. unfold find_indexes_window. destruct (Z.eqb_spec size 0); [lia|].
  destruct (find_indexes a x) as [[[i0 i1]|]| |] eqn:Hf; cbn [obind]; try discriminate.
  - destruct (find_indexes_range a x i0 i1 OK Hl Hf) as [R0 R1]. fold (len a).
    destruct (window_loop _ _ _ _ _ _ _ _ _) as [w'|] eqn:E; intro H; injection H as <-.
    + apply window_loop_range in E; try lia.
      * destruct E as [E1 E2]. split; auto. right. unfold zlen. simpl in E1. lia.
      * intros Q1 Q2. specialize (Hb Q1 Q2). lia.
      * intros i [[<-|[]]|[<-|[]]]; lia.
    + split; auto. intros i [].
  - destruct (Z.eqb_spec size 1) as [->|].
    + destruct (c_value (a_cont a) 0); [destruct (Qeq_bool x q)|]; intro H; injection H as <-;
        split; auto; simpl; intuition (try lia).
    + intro H; injection H as <-. split; auto. intros i [].
Qed.

(** ** Flip and pickle *)
Lemma flip_at a i v : axis_ok a -> at_index a i v ->
  exists w, at_index (flip a) (len a - 1 - i) w /\ (w == v)%Q.
Proof.
  intros (W & _) H. apply at_index_iff in H; auto. destruct H as [Hi ->].
  unfold len in *.
  exists (fval (c_flip (a_cont a)) (c_size (a_cont a) - 1 - i)). split.
  - apply at_index_iff; simpl. apply flip_wf; auto. unfold len; simpl. rewrite flip_size. split; auto; lia.
  - rewrite flip_value by (auto; lia). replace (c_size (a_cont a) - 1 - (c_size (a_cont a) - 1 - i)) with i by ring.
    reflexivity.
Qed.

Lemma pickle_roundtrip a :
  axis_ok a -> is_regular a = false \/ 1 < len a ->
  (is_angle a = true -> a_is_circle a = true) ->
  exists b, setstate (getstate a) = Ok b /\ len b = len a /\ axis_eqb b a = true /\
    a_is_circle b = a_is_circle a /\ is_angle b = is_angle a /\ is_regular b = is_regular a /\
    (1 < len a -> is_ascending b = is_ascending a) /\
    (forall i v, at_index a i v -> exists w, at_index b i w /\ (w == v)%Q).
Proof.
  intros OK Hr Ha. assert (W := proj1 OK).
  assert (HB : is_angle (axis_of_container (a_cont a) (a_is_circle a)) = is_angle a).
  { unfold is_angle in *. simpl. destruct OK as (_ & _ & C2). destruct (a_is_circle a).
    - rewrite C2; auto. - destruct (a_circle a); auto. }
  unfold getstate, is_angle, is_regular, len in *.
  assert (AT := fun i v => at_index_iff a i v W).
  destruct (a_cont a) as [|asc pts|asc n s st inv] eqn:E; [destruct W| |].
  - cbn [setstate]. unfold mk_irregular. destruct W as [Hn M].
    destruct (Z.eqb_spec (zlen pts) 0); [lia|]. cbn [obind].
    eexists. split; [reflexivity|].
    assert (P : axis_ok (axis_of_container (CIrr (calc_ascending (zlen pts) (znth pts 0) (znth pts 1)) pts) (a_is_circle a))).
    { apply (pickle_ok a). { exact OK. } unfold getstate. rewrite E. cbn [setstate]. unfold mk_irregular.
      destruct (Z.eqb_spec (zlen pts) 0); [lia|]. reflexivity. }
    simpl. repeat split; auto.
    + unfold axis_eqb. rewrite E. simpl. rewrite eqb_reflx, andb_true_r.
      clear. induction pts; simpl; auto. rewrite IHpts, andb_true_r. apply Qeq_bool_iff. reflexivity.
    + unfold is_ascending. rewrite E. simpl. intro H1. unfold calc_ascending.
      destruct (Z.ltb_spec (zlen pts) 2); [lia|].
      destruct (znth_in_range pts 0 ltac:(lia)) as [u Hu]. destruct (znth_in_range pts 1 ltac:(lia)) as [v Hv].
      rewrite Hu, Hv. assert (X := M 0 1 ltac:(lia) ltac:(lia)).
      unfold fval in X; simpl in X. rewrite Hu, Hv in X.
      destruct (Qltb_spec u v); destruct asc; auto; lra.
    + intros i v Hi. exists v. split; [|reflexivity].
      apply AT in Hi. apply at_index_iff; [apply P|]. unfold len in Hi. rewrite E in Hi. exact Hi.
  - cbn [setstate]. destruct W as (Hn & Hst & Hinv & Hpos). simpl in Hr.
    destruct Hr as [Hr|Hr]; [discriminate|]. specialize (Hpos Hr).
    unfold mk_regular. destruct (Z.eqb_spec n 0); [lia|].
    assert (NZ : (0 < inject_Z (n - 1))%Q) by (change 0%Q with (inject_Z 0); apply inject_Z_lt; lia).
    destruct (Qeqb_spec s (s + inject_Z (n - 1) * st)) as [Q1|Q1].
    { exfalso. destruct asc; nra. }
    destruct (Z.eqb_spec n 1); [lia|]. cbn [obind].
    set (st' := ((s + inject_Z (n - 1) * st - s) / inject_Z (n - 1))%Q).
    assert (Est : (st' == st)%Q) by (unfold st'; field; lra).
    eexists. split; [reflexivity|]. simpl. 
    assert (Easc : calc_ascending n (Some (s + 0 * st')%Q) (Some (s + 1 * st')%Q) = asc).
    { unfold calc_ascending. destruct (Z.ltb_spec n 2); [lia|].
      destruct (Qltb_spec (s + 0 * st') (s + 1 * st')); destruct asc; auto; lra. }
    repeat split; auto.
    + unfold axis_eqb. rewrite E. simpl. rewrite eqb_reflx, Z.eqb_refl, !andb_true_r.
      apply andb_true_intro. split; apply Qeq_bool_iff; [exact Est|reflexivity].
    + unfold is_ascending. rewrite E. simpl. auto.
    + intros i v Hi. apply AT in Hi. destruct Hi as [Hi ->]. unfold len in Hi. rewrite E in Hi. simpl in Hi.
      eexists. split.
      * unfold at_index, coordinate_value. simpl.
        destruct (Z.ltb_spec i 0); [lia|]. rewrite Z.geb_leb. destruct (Z.leb_spec n i); [lia|]. simpl. reflexivity.
      * unfold fval; simpl. rewrite Est. reflexivity.
Qed.
