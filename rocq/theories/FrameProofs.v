(** Windows of a grid: which indexes and coordinates [load_frame] reads. *)
From Verif Require Import Base BaseProofs MathModel MathProofs AxisModel IntAxisModel AxisSpec AxisProofs AxisProofs2 AxisProofs3 AxisProofs5.
From Verif Require Import InterpModel InterpSpec GridModel GridSpec FrameModel FrameSpec.
Open Scope Z_scope.

Lemma seq_from m k : seq m k = map (fun i => m + i)%nat (seq 0 k).
Proof. revert m. induction k as [|k IH]; intro m; [reflexivity|]. cbn. f_equal; [lia|]. rewrite (IH (S m)), (IH 1%nat), map_map. apply map_ext. intro; lia. Qed.

Section Axis.
  Variable a : axis.
  Hypothesis U : usable a.
  Let f := fval (a_cont a).
  Let n := len a.

  Lemma u_ok : axis_ok a. Proof. apply reachable_ok, U. Qed.
  Lemma u_wf : wf (a_cont a). Proof. apply u_ok. Qed.
  Lemma u_len : 1 < n. Proof. apply U. Qed.
  Lemma u_mono i j : 0 <= i < j -> j < n -> (f i < f j)%Q.
  Proof.
    intros Hi Hj. assert (M := wf_mono _ u_wf i j Hi Hj). destruct U as (_ & _ & A & _). unfold is_ascending in A. rewrite A in M. exact M.
  Qed.
  Lemma u_mono_le i j : 0 <= i <= j -> j < n -> (f i <= f j)%Q.
  Proof. intros Hi Hj. destruct (Z.eq_dec i j) as [->|]; [apply Qle_refl|]. apply Qlt_le_weak, u_mono; lia. Qed.
  Lemma u_at i v : at_index a i v <-> 0 <= i < n /\ v = f i.
  Proof. apply at_index_iff, u_wf. Qed.
  Lemma u_lo : lo (a_cont a) = f 0.
  Proof. destruct U as (_ & _ & A & _). unfold is_ascending in A. unfold lo. rewrite A. reflexivity. Qed.
  Lemma u_hi : hi (a_cont a) = f (n - 1).
  Proof. destruct U as (_ & _ & A & _). unfold is_ascending in A. unfold hi. rewrite A. reflexivity. Qed.
  Lemma u_value i : 0 <= i < n -> c_value (a_cont a) i = Some (f i).
  Proof. intro H. apply wf_value; [apply u_wf|exact H]. Qed.
  Lemma u_axis_at i : 0 <= i < n -> axis_at a i = Ok (f i).
  Proof. intro H. unfold axis_at. rewrite u_value by exact H. reflexivity. Qed.
  Lemma u_circle : is_angle a = true -> a_circle a = Some 360%Q.
  Proof. unfold is_angle. destruct u_ok as (_ & [C|C] & _); rewrite C; [discriminate|auto]. Qed.
  Lemma u_plain : is_angle a = false -> a_circle a = None /\ a_is_circle a = false.
  Proof.
    unfold is_angle. destruct u_ok as (_ & C & D). destruct (a_circle a) eqn:E; [discriminate|]. intros _. split; auto.
    destruct (a_is_circle a); auto. discriminate (D eq_refl).
  Qed.
  Lemma u_circle_angle : a_is_circle a = true -> is_angle a = true.
  Proof. intro H. destruct (is_angle a) eqn:E; auto. apply u_plain in E. destruct E. congruence. Qed.
  Lemma u_narrow : is_angle a = true -> (f (n - 1) < f 0%Z + 360)%Q.
  Proof.
    intro H. assert (L := u_len). destruct U as (_ & _ & _ & N). specialize (N H 0 (n - 1) (f 0) (f (n - 1))). rewrite !u_at in N.
    specialize (N ltac:(split; [lia|reflexivity]) ltac:(split; [lia|reflexivity])). lra.
  Qed.

  (** What [find_indexes] returns on an ascending axis. *)
  Lemma asc_find x : exists z r, same_place a z x /\ find_indexes a x = Ok r /\
    match r with
    | Some (i0, i1) => cell_of a z i0 /\ 0 <= i0 < n /\ i1 = (i0 + 1) mod n
    | None => a_is_circle a = false /\ ((z < f 0) \/ (f (n - 1)%Z < z))%Q /\ (is_angle a = true -> f 0 <= z < f 0 + 360)%Q
    end.
  Proof.
    assert (L := u_len). assert (OK := u_ok). assert (W := u_wf).
    set (y := normalize_coordinate a x). exists y.
    assert (Y : same_place a y x /\ normalize_coordinate a y = y /\ (is_angle a = true -> f 0 <= y < f 0 + 360)%Q).
    { unfold same_place. destruct (is_angle a) eqn:E.
      - destruct (normalize_angle_axis a x W (u_circle E)) as (A & B & C). rewrite u_lo in A. fold y in A, B, C. auto.
      - destruct (u_plain E) as [C _]. unfold y. rewrite !(normalize_none a) by auto. split; [reflexivity|]. split; [reflexivity|discriminate]. }
    destruct Y as (Y1 & Y2 & Y3). unfold find_indexes. fold y. unfold find_index. rewrite Y2.
    destruct (c_find_spec (a_cont a) y false W) as (r & -> & H). cbn [obind]. change (c_size (a_cont a)) with n in *.
    destruct H as [(-> & _ & H & _)|N].
    - simpl (-1 =? -1). cbv iota. assert (O : (y < f 0 \/ f (n - 1)%Z < y)%Q).
      { assert (O := H (or_introl L)). unfold out_of_ends in O. destruct U as (_ & _ & A & _). unfold is_ascending in A. rewrite A in O. fold n f in O. tauto. }
      eexists. split; [exact Y1|]. split; [reflexivity|]. destruct (a_is_circle a) eqn:C.
      + assert (Ang := u_circle_angle C). specialize (Y3 Ang). split; [|split; [lia|]].
        * right. split; [exact C|]. split; [reflexivity|]. exists (f (n - 1)), (f 0). rewrite !u_at. repeat split; try lia; lra.
        * replace (n - 1 + 1) with n by ring. rewrite Z.mod_same by lia. reflexivity.
      + auto.
    - assert (R : 0 <= r < n) by apply N. destruct (Z.eqb_spec r (-1)) as [E|E]; [lia|]. rewrite u_value by lia.
      assert (P := pair_of_spec (a_cont a) (a_is_circle a) y r W L N). assert (As : c_asc (a_cont a) = true) by apply U.
      rewrite As in *. change (c_size (a_cont a)) with n in *. fold f in P.
      exists (pair_of (a_is_circle a) true n r (y - f r)). split; [exact Y1|].
      split; [unfold pair_of; cbv zeta; match goal with |- (let (_, _) := ?p in _) = _ => destruct p end; reflexivity|].
      destruct (pair_of (a_is_circle a) true n r (y - f r)) as [[i0 i1]|] eqn:PE.
      + destruct P as (B0 & B1 & P). split; [|split; [exact B0|]].
        * destruct P as [(A & _ & C)|(C & A & B)].
          -- specialize (C eq_refl). destruct A as [-> | ->].
             ++ left. exists (f i0), (f (i0 + 1)). rewrite !u_at. split; [split; [lia|reflexivity]|]. split; [split; [lia|reflexivity]|]. split; [apply C|].
                destruct (Qlt_le_dec y (f (i0 + 1)%Z)) as [D|D]; [left; exact D|]. assert (E1 : (y == f (i0 + 1)%Z)%Q) by (destruct C; lra).
                right. split; [|exact E1]. destruct (Z.eq_dec (i0 + 2) n) as [|Ne]; [assumption|exfalso].
                assert (Er : r = i0 + 1).
                { destruct N as [_ N]. destruct (N (i0 + 1) ltac:(lia)) as [N1 _]. fold f in N1. rewrite <- E1 in N1.
                  assert (N2 : (y == f r)%Q). { setoid_replace (y - y)%Q with 0%Q in N1 by ring. change (Qabs 0) with 0%Q in N1. assert (N3 := Qabs_nonneg (y - f r)). assert (N4 : (Qabs (y - f r) == 0)%Q) by lra. 
                    assert (N5 := Qle_Qabs (y - f r)). assert (N6 := Qle_Qabs (- (y - f r))). rewrite Qabs_opp in N6. lra. }
                  destruct (Z.lt_trichotomy r (i0 + 1)) as [T|[T|T]]; [|exact T|].
                  - assert (X := u_mono r (i0 + 1) ltac:(lia) ltac:(lia)). lra.
                  - assert (X := u_mono (i0 + 1) r ltac:(lia) ltac:(lia)). lra. }
                revert PE. unfold pair_of. destruct (Qeqb_spec (y - f r) 0) as [|NE]; [|rewrite Er in NE; lra]. destruct (Z.eqb_spec r (n - 1)); [lia|].
                destruct (in_range_test r (r + 1) n) as [_ ->]; [|lia]. intro PE. injection PE as X1 X2. lia.
             ++ exfalso. assert (X := u_mono i1 (i1 + 1) ltac:(lia) ltac:(lia)). destruct C. lra.
          -- assert (Ang := u_circle_angle C). specialize (Y3 Ang). rewrite u_lo, u_hi in B. right. split; [exact C|].
             assert (i0 = n - 1) as ->.
             { destruct A as [[-> ->]|[-> ->]]; [|reflexivity]. exfalso. revert PE. unfold pair_of.
               assert (X := u_mono 0 (n - 1) ltac:(lia) ltac:(lia)).
               destruct (Qeqb_spec (y - f r) 0) as [E0|E0].
               - assert (X1 := u_mono_le r (n - 1) ltac:(lia) ltac:(lia)). assert (X2 := u_mono_le 0 r ltac:(lia) ltac:(lia)). lra.
               - destruct (Qltb_spec (y - f r) 0) as [E1|E1].
                 + assert (X1 := u_mono_le r (n - 1) ltac:(lia) ltac:(lia)). lra.
                 + rewrite C. destruct (_ && _); [|discriminate]. intro PE. injection PE as PE1 PE2.
                   subst r. rewrite rem_int_mod in PE2 by lia. destruct (Z.eq_dec n 2) as [N2|N2].
                   * destruct N as [_ N]. destruct (N (n - 1) ltac:(lia)) as [N1 _]. fold f in N1. rewrite !Qabs_pos in N1 by lra. lra.
                   * rewrite Z.mod_small in PE2 by lia. lia. }
             split; [reflexivity|]. exists (f (n - 1)), (f 0). rewrite !u_at. repeat split; try lia; lra.
        * destruct P as [(A & _ & C)|(C & A & B)].
          -- specialize (C eq_refl). destruct A as [-> | ->]; [rewrite Z.mod_small by lia; reflexivity|].
             exfalso. assert (X := u_mono i1 (i1 + 1) ltac:(lia) ltac:(lia)). destruct C. lra.
          -- destruct A as [[-> ->]|[-> ->]]; [|replace (n - 1 + 1) with n by ring; rewrite Z.mod_same by lia; reflexivity].
             destruct (Z.eq_dec n 2) as [N2|N2]; [rewrite N2; reflexivity|exfalso].
             revert PE. unfold pair_of. assert (Ang := u_circle_angle C). specialize (Y3 Ang). rewrite u_lo, u_hi in B.
               destruct (Qeqb_spec (y - f r) 0) as [E0|E0].
               ++ assert (X1 := u_mono_le r (n - 1) ltac:(lia) ltac:(lia)). assert (X2 := u_mono_le 0 r ltac:(lia) ltac:(lia)). lra.
               ++ destruct (Qltb_spec (y - f r) 0) as [E1|E1].
                 ** assert (X1 := u_mono_le r (n - 1) ltac:(lia) ltac:(lia)). lra.
                 ** rewrite C. destruct (_ && _); [|discriminate]. intro PE. injection PE as PE1 PE2.
                   subst r. rewrite rem_int_mod in PE2 by lia. rewrite Z.mod_small in PE2 by lia. lia.
      + rewrite u_lo, u_hi in P. destruct P. auto.
  Qed.

  (** Cells are disjoint. *)
  Lemma cell_bounds z i : cell_of a z i -> 0 <= i < n /\ (f 0 <= z)%Q /\ (f i <= z)%Q /\ (is_angle a = true -> z < f 0 + 360)%Q /\ (a_is_circle a = false -> i + 1 < n /\ (z <= f (n - 1)%Z)%Q).
  Proof.
    assert (L := u_len). intros [(v & w & Hv & Hw & A & B)|(C & -> & v & w & Hv & Hw & A & B)]; rewrite u_at in Hv, Hw; destruct Hv as [Hv ->], Hw as [Hw ->].
    - split; [lia|]. assert (X := u_mono_le 0 i ltac:(lia) ltac:(lia)). assert (X1 := u_mono_le (i + 1) (n - 1) ltac:(lia) ltac:(lia)).
      assert (Y : (z <= f (i + 1)%Z)%Q) by (destruct B as [B|[_ B]]; lra). split; [lra|]. split; [exact A|]. split.
      + intro Ang. assert (N := u_narrow Ang). lra.
      + intros _. split; [lia|lra].
    - split; [lia|]. fold n in A. assert (X := u_mono_le 0 (n - 1) ltac:(lia) ltac:(lia)). split; [lra|]. split; [fold n; lra|]. split; [intros _; exact B|]. intro; congruence.
  Qed.
  Lemma cell_le z i j : cell_of a z i -> cell_of a z j -> i <= j.
  Proof.
    assert (L := u_len). intros Ci Cj. destruct (Z_le_gt_dec i j) as [|G]; auto. exfalso.
    destruct (cell_bounds z i Ci) as (Bi & _ & Fi & _). destruct (cell_bounds z j Cj) as (Bj & _).
    destruct Cj as [(v & w & Hv & Hw & A & B)|(C & -> & _)]; [|unfold n in *; lia].
    rewrite u_at in Hv, Hw. destruct Hv as [Hv ->], Hw as [Hw ->]. assert (X := u_mono_le (j + 1) i ltac:(lia) ltac:(lia)).
    destruct B as [B|[E B]]; [lra|]. fold n in E. assert (i = j + 1) by lia. subst i.
    destruct Ci as [(v & w & Hv' & Hw' & _)|(_ & _ & v & w & Hv' & Hw' & A' & _)].
    - rewrite u_at in Hw'. lia.
    - rewrite u_at in Hv'. destruct Hv' as [_ ->]. lra.
  Qed.
  Lemma cell_eq z z' i : (z == z')%Q -> cell_of a z i -> cell_of a z' i.
  Proof.
    intros E [(v & w & Hv & Hw & A & B)|(C & Hi & v & w & Hv & Hw & A & B)]; [left|right; split; [exact C|split; [exact Hi|]]]; exists v, w; (split; [exact Hv|split; [exact Hw|]]); rewrite <- E; auto.
  Qed.
  Lemma place_trans z z' x : same_place a z x -> same_place a z' x -> same_place a z z'.
  Proof.
    unfold same_place. destruct (is_angle a); [|intros -> ->; reflexivity]. intros [k Hk] [k' Hk']. exists (k - k'). unfold Z.sub. rewrite inject_Z_plus, inject_Z_opp. rewrite Hk, Hk'. ring.
  Qed.
  Lemma cell_place z z' i i' : same_place a z z' -> cell_of a z i -> cell_of a z' i' -> (z == z')%Q /\ i = i'.
  Proof.
    intros S C C'. assert (E : (z == z')%Q).
    { unfold same_place in S. destruct (is_angle a) eqn:Ang; [|exact S]. destruct S as [k Hk].
      destruct (cell_bounds z i C) as (_ & A & _ & B & _). destruct (cell_bounds z' i' C') as (_ & A' & _ & B' & _).
      apply (turn_unique z z' (f 0) 360 k); auto; lra. }
    split; [exact E|]. assert (C'' := cell_eq z z' i E C). apply Z.le_antisymm; eapply cell_le; eauto.
  Qed.

  (** *** The indexes of a window *)
  Lemma node_range s k : 0 <= node a s k < n.
  Proof. assert (L := u_len). apply Z.mod_pos_bound. fold n. lia. Qed.
  Lemma redirect_circle b i : redirect true b n i = Some (i mod n).
  Proof. unfold redirect. destruct (Z.leb_spec 0 i), (Z.ltb_spec i n); cbn [andb]; auto. rewrite Z.mod_small by lia. reflexivity. Qed.
  Lemma all_some_map {A B} (g : A -> option B) (h : A -> B) l : (forall x, In x l -> g x = Some (h x)) -> all_some (map g l) = Some (map h l).
  Proof. induction l as [|x t IH]; intro H; cbn; auto. rewrite (H x) by (left; auto). rewrite IH by (intros; apply H; right; auto). reflexivity. Qed.
  Lemma span_in from c i : 0 <= c -> In i (span from c) <-> from <= i < from + c.
  Proof.
    intro Hc. unfold span. rewrite in_map_iff. split.
    - intros (k & <- & H). apply in_seq in H. lia.
    - intro H. exists (Z.to_nat (i - from)). split; [lia|]. apply in_seq. lia.
  Qed.
  Lemma window_indexes x size s b : (1 <= size)%nat -> no_overlap a size -> FrameSpec.window a x size s ->
    find_indexes_window a x (Z.of_nat size) b = Ok (map (node a s) (seq 0 (2 * size))).
  Proof.
    intros H1 NO (z & i & S & C & -> & Fit). assert (L := u_len).
    destruct (asc_find x) as (z' & r & S' & Hr & P). destruct r as [[i0 i1]|].
    - destruct P as (C' & B0 & ->). destruct (cell_place z z' i i0 (place_trans z z' x S S') C C') as [_ <-].
      destruct (cell_bounds z i C) as (Bi & _ & _ & _ & Bn).
      assert (Sz : Z.of_nat size <= n). { destruct Fit as [Ci|Fit]; [specialize (NO Ci); fold n in NO; lia|fold n in Fit; lia]. }
      rewrite (window_spec a x (Z.of_nat size) b i _ u_ok L ltac:(fold n; lia) Hr). f_equal. fold n.
      rewrite (all_some_map _ (fun j => j mod n)).
      + replace (2 * size)%nat with (size + size)%nat by lia. rewrite seq_app, !map_app. unfold span. rewrite !map_map, Nat2Z.id. f_equal.
        * apply map_ext. intro k. unfold node. fold n. f_equal. lia.
        * rewrite Nat.add_0_l, (seq_from size), map_map. apply map_ext. intro k. unfold node. fold n.
          rewrite Zplus_mod_idemp_l. f_equal. lia.
      + intros j Hj. destruct (a_is_circle a) eqn:Ci; [apply redirect_circle|].
        destruct Fit as [|Fit]; [discriminate|]. destruct (Bn eq_refl) as [Bn1 _]. fold n in Fit. rewrite (Z.mod_small (i + 1)) in Hj by lia.
        assert (Hj' : 0 <= j < n) by (apply in_app_iff in Hj; destruct Hj as [Hj|Hj]; apply span_in in Hj; lia).
        rewrite redirect_in by exact Hj'. rewrite Z.mod_small by exact Hj'. reflexivity.
    - exfalso. destruct P as (Ci & O & Y). destruct (cell_bounds z i C) as (_ & Z1 & _ & Z3 & Z4). destruct (Z4 Ci) as [_ Z5].
      assert (E : (z == z')%Q). { assert (S'' := place_trans z z' x S S'). unfold same_place in S''. destruct (is_angle a) eqn:Ang; [|exact S''].
        destruct S'' as [k Hk]. specialize (Y eq_refl). specialize (Z3 eq_refl). apply (turn_unique z z' (f 0) 360 k); auto; lra. }
      lra.
  Qed.
  Lemma loop_none len i0 i1 : forall m shift l r, (0 < m)%nat -> (i0 - (shift + Z.of_nat m - 1) < 0 \/ len <= i1 + (shift + Z.of_nat m - 1)) ->
    window_loop m false kUndef len i0 i1 shift l r = None.
  Proof.
    induction m as [|m IH]; intros shift l r Hm H; [lia|]. cbn [window_loop]. unfold window_before, window_after. rewrite Z.geb_leb.
    destruct (Z.ltb_spec (i0 - shift) 0); [reflexivity|]. destruct (Z.leb_spec len (i1 + shift)); [reflexivity|].
    apply IH; [|lia]. destruct m; lia.
  Qed.
  Lemma no_window x size : (1 <= size)%nat -> ~ (exists s, FrameSpec.window a x size s) -> find_indexes_window a x (Z.of_nat size) kUndef = Ok [].
  Proof.
    intros H1 NW. assert (L := u_len). unfold find_indexes_window. destruct (Z.eqb_spec (Z.of_nat size) 0); [lia|].
    destruct (asc_find x) as (z & r & S & -> & P). cbn [obind]. destruct r as [[i0 i1]|].
    - destruct P as (C & B & ->). destruct (a_is_circle a) eqn:Ci.
      + exfalso. apply NW. exists (i0 - Z.of_nat size + 1), z, i0. auto.
      + destruct (cell_bounds z i0 C) as (_ & _ & _ & _ & Bn). destruct (Bn Ci) as [Bn1 _]. rewrite Z.mod_small by lia.
        assert (NF : ~ (0 <= i0 - Z.of_nat size + 1 /\ i0 - Z.of_nat size + 1 + 2 * Z.of_nat size <= n)).
        { intro F. apply NW. exists (i0 - Z.of_nat size + 1), z, i0. auto. }
        rewrite loop_none; [reflexivity| |]. { destruct (Z.to_nat (Z.of_nat size - 1)) eqn:T; [|lia]. exfalso. apply NF. lia. }
        change (c_size (a_cont a)) with n. lia.
    - destruct (Z.of_nat size =? 1) eqn:T; [|reflexivity]. rewrite u_value by lia. destruct (Qeqb_spec x (f 0)) as [E|E]; [|reflexivity].
      exfalso. destruct P as (_ & O & Y). assert (X := u_mono 0 (n - 1) ltac:(lia) ltac:(lia)).
      assert (Ez : (z == f 0%Z)%Q).
      { unfold same_place in S. destruct (is_angle a) eqn:Ang; [|rewrite S; exact E]. specialize (Y eq_refl). destruct S as [k Hk]. rewrite E in Hk.
        apply (turn_unique z (f 0) (f 0) 360 k); auto; lra. }
      lra.
  Qed.

  (** *** The coordinates of a window *)
  Definition lift (j : Z) : Q := (f (j mod n) + inject_Z (j / n) * 360)%Q.
  Lemma lift_step : is_angle a = true -> forall j, (lift j < lift (j + 1))%Q.
  Proof.
    intros Ang j. assert (L := u_len). assert (N := u_narrow Ang). unfold lift. assert (M := Z.mod_pos_bound j n ltac:(lia)). assert (D := Z.div_mod j n ltac:(lia)).
    destruct (Z.eq_dec (j mod n) (n - 1)) as [E|E].
    - assert (Q1 : (j + 1) / n = j / n + 1) by (symmetry; apply (Z.div_unique _ _ _ 0); lia). assert (R1 : (j + 1) mod n = 0) by (symmetry; apply (Z.mod_unique _ _ (j / n + 1)); lia).
      rewrite Q1, R1, E, inject_Z_plus. change (inject_Z 1) with 1%Q. lra.
    - assert (Q1 : (j + 1) / n = j / n) by (symmetry; apply (Z.div_unique _ _ _ (j mod n + 1)); lia). assert (R1 : (j + 1) mod n = j mod n + 1) by (symmetry; apply (Z.mod_unique _ _ (j / n)); lia).
      rewrite Q1, R1. assert (X := u_mono (j mod n) (j mod n + 1) ltac:(lia) ltac:(lia)). lra.
  Qed.
  Lemma lift_le : is_angle a = true -> forall m j, 0 <= m -> (lift j <= lift (j + m))%Q.
  Proof.
    intros Ang m j Hm. pattern m. apply natlike_ind; auto.
    - rewrite Z.add_0_r. apply Qle_refl.
    - intros k Hk IH. assert (S := lift_step Ang (j + k)). replace (j + Z.succ k) with (j + k + 1) by lia. lra.
  Qed.
  Lemma lift_turn j : (lift (j + n) == lift j + 360)%Q.
  Proof.
    assert (L := u_len). unfold lift. replace (j + n) with (j + 1 * n) by ring. rewrite Z.mod_add, Z.div_add by lia. rewrite inject_Z_plus. change (inject_Z 1) with 1%Q. ring.
  Qed.
  Lemma lift_plain j : 0 <= j < n -> (lift j == f j)%Q.
  Proof. intro H. unfold lift. rewrite Z.mod_small, Z.div_small by lia. change (inject_Z 0) with 0%Q. ring. Qed.

  Definition coord (s : Z) (k : nat) : Q :=
    if is_angle a then normalize_angle (f (node a s k)) (f (node a s 0)) 360 else f (node a s k).
  Lemma coord_lift s k : is_angle a = true -> Z.of_nat k < n -> (coord s k == lift (s + Z.of_nat k) - inject_Z (s / n) * 360)%Q.
  Proof.
    intros Ang Hk. assert (L := u_len). unfold coord. rewrite Ang.
    assert (E0 : f (node a s 0) = f (s mod n)) by (unfold node; fold n; rewrite Nat2Z.inj_0, Z.add_0_r; reflexivity). rewrite E0.
    destruct (normalize_angle_spec (f (node a s k)) (f (s mod n)) 360 ltac:(lra)) as (A & B & t & T).
    apply (turn_unique _ _ (f (s mod n)) 360 (t - (s + Z.of_nat k) / n + s / n)); [lra|split; [exact A|exact B]| |].
    - assert (X := lift_le Ang (Z.of_nat k) s ltac:(lia)). assert (Y : (lift (s + Z.of_nat k) < lift (s + n))%Q).
      { assert (Y := lift_step Ang (s + Z.of_nat k)). assert (Y' := lift_le Ang (n - Z.of_nat k - 1) (s + Z.of_nat k + 1) ltac:(lia)). replace (s + Z.of_nat k + 1 + (n - Z.of_nat k - 1)) with (s + n) in Y' by ring. lra. }
      rewrite lift_turn in Y. unfold lift in X at 1. unfold lift in Y at 2. split; lra.
    - rewrite T. unfold lift, node. fold n. unfold Z.sub. rewrite !inject_Z_plus, inject_Z_opp. ring.
  Qed.
  Lemma lift_cell z i : is_angle a = true -> cell_of a z i -> (lift i <= z <= lift (i + 1))%Q.
  Proof.
    intros Ang C. assert (L := u_len). destruct (cell_bounds z i C) as (Bi & _ & Fi & _). rewrite (lift_plain i) by lia. split; [exact Fi|].
    destruct C as [(v & w & Hv & Hw & A & B)|(C & -> & v & w & Hv & Hw & A & B)]; rewrite u_at in Hv, Hw; destruct Hv as [Hv ->], Hw as [Hw ->].
    - rewrite lift_plain by lia. destruct B as [B|[_ B]]; lra.
    - fold n. replace (n - 1 + 1) with (0 + n) by ring. rewrite lift_turn, lift_plain by lia. lra.
  Qed.
  Lemma at_map (g : nat -> Q) m k : (k < m)%nat -> at_ (map g (seq 0 m)) k = g k.
  Proof. intro H. unfold at_. rewrite nth_indep with (d' := g 0%nat) by (rewrite map_length, seq_length; exact H). rewrite map_nth, seq_nth by exact H. reflexivity. Qed.

  Definition abscissa (s : Z) (x : Q) : Q := if is_angle a then normalize_angle x (coord s 0) 360 else x.
  Lemma same_place_sym z x : same_place a z x -> same_place a x z.
  Proof. unfold same_place. destruct (is_angle a); [|symmetry; assumption]. intros [k H]. exists (- k). rewrite inject_Z_opp, H. ring. Qed.
  Lemma fits x size s : (1 <= size)%nat -> no_overlap a size -> FrameSpec.window a x size s -> 2 * Z.of_nat size <= n.
  Proof. intros H1 NO (z & i & _ & _ & _ & [C|F]); [apply NO; exact C|fold n in F; lia]. Qed.
  Lemma window_unrolled x size s : (1 <= size)%nat -> no_overlap a size -> FrameSpec.window a x size s ->
    unrolled a x size s (map (coord s) (seq 0 (2 * size))) (abscissa s x).
  Proof.
    intros H1 NO Wi. assert (F := fits x size s H1 NO Wi). assert (L := u_len). destruct Wi as (z & i & S & C & Es & Fit).
    split; [rewrite map_length, seq_length; reflexivity|].
    destruct (is_angle a) eqn:Ang.
    - split; [|split; [|split]].
      + intros k Hk. rewrite map_length, seq_length in Hk. rewrite !at_map by lia. rewrite !coord_lift by (auto; lia).
        assert (X := lift_step Ang (s + Z.of_nat k)). replace (s + Z.of_nat (Datatypes.S k)) with (s + Z.of_nat k + 1) by lia. lra.
      + intros k Hk. exists (f (node a s k)). split; [apply u_at; split; [apply node_range|reflexivity]|].
        rewrite at_map by lia. unfold same_place, coord. rewrite Ang. destruct (normalize_angle_spec (f (node a s k)) (f (node a s 0)) 360 ltac:(lra)) as (_ & _ & t & T). exists t. exact T.
      + unfold same_place, abscissa. rewrite Ang. destruct (normalize_angle_spec x (coord s 0) 360 ltac:(lra)) as (_ & _ & t & T). exists t. exact T.
      + rewrite !at_map by lia. rewrite !coord_lift by (auto; lia).
        assert (Ez : (abscissa s x == z - inject_Z (s / n) * 360)%Q).
        { unfold abscissa. rewrite Ang. destruct (normalize_angle_spec x (coord s 0) 360 ltac:(lra)) as (A & B & t & T).
          unfold same_place in S. rewrite Ang in S. destruct S as [t' T'].
          apply (turn_unique _ _ (coord s 0) 360 (t - t' + s / n)); [lra|split; [exact A|exact B]| |].
          - rewrite (coord_lift s 0 Ang ltac:(lia)). destruct (lift_cell z i Ang C) as [X Y]. rewrite Nat2Z.inj_0, Z.add_0_r.
            assert (X' := lift_le Ang (i - s) s ltac:(lia)). replace (s + (i - s)) with i in X' by ring. split; [lra|].
            assert (Y1 := lift_step Ang (i + 1)). assert (Y' := lift_le Ang (s + n - (i + 2)) (i + 2) ltac:(lia)). replace (i + 2 + (s + n - (i + 2))) with (s + n) in Y' by ring.
            replace (i + 1 + 1) with (i + 2) in Y1 by ring. rewrite lift_turn in Y'. lra.
          - rewrite T, T'. unfold Z.sub. rewrite !inject_Z_plus, inject_Z_opp. ring. }
        rewrite Ez. destruct (lift_cell z i Ang C) as [X Y]. replace (s + Z.of_nat (size - 1)) with i by lia. replace (s + Z.of_nat size) with (i + 1) by lia. split; lra.
    - destruct (u_plain Ang) as [_ Ci]. destruct Fit as [|Fit]; [congruence|]. fold n in Fit.
      assert (Nd : forall k, (k < 2 * size)%nat -> node a s k = s + Z.of_nat k) by (intros k Hk; unfold node; fold n; apply Z.mod_small; lia).
      assert (Co : forall k, (k < 2 * size)%nat -> coord s k = f (s + Z.of_nat k)) by (intros k Hk; unfold coord; rewrite Ang, Nd by lia; reflexivity).
      split; [|split; [|split]].
      + intros k Hk. rewrite map_length, seq_length in Hk. rewrite !at_map, !Co by lia. apply u_mono; lia.
      + intros k Hk. exists (f (node a s k)). split; [apply u_at; split; [apply node_range|reflexivity]|].
        rewrite at_map, Co by lia. unfold same_place. rewrite Ang, Nd by lia. reflexivity.
      + unfold same_place, abscissa. rewrite Ang. reflexivity.
      + rewrite !at_map, !Co by lia. unfold abscissa. rewrite Ang. unfold same_place in S. rewrite Ang in S. rewrite <- S.
        destruct C as [(v & w & Hv & Hw & A & B)|(C & _)]; [|congruence]. rewrite u_at in Hv, Hw. destruct Hv as [Hv ->], Hw as [Hw ->].
        replace (s + Z.of_nat (size - 1)) with i by lia. replace (s + Z.of_nat size) with (i + 1) by lia. destruct B as [B|[_ B]]; lra.
  Qed.
End Axis.
