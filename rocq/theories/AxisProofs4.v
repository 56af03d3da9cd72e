From Verif Require Import Base BaseProofs MathModel MathProofs AxisModel AxisSpec AxisProofs AxisProofs2 AxisProofs3.
Open Scope Z_scope.

(** ** Nearest index on the circle, irregular ascending axes *)
Lemma turn_ge (m : Z) : 1 <= m -> (360 <= inject_Z m * 360)%Q.
Proof. intro H. assert (G := inject_Z_le _ _ H). change (inject_Z 1) with 1%Q in G. lra. Qed.
Lemma turn_le (m : Z) : m <= -1 -> (inject_Z m * 360 <= -(360))%Q.
Proof. intro H. assert (G := inject_Z_le _ _ H). change (inject_Z (-1)) with (-(1))%Q in G. lra. Qed.

Lemma nearest_circle_irregular a x :
  axis_ok a -> a_is_circle a = true -> is_ascending a = true -> is_regular a = false ->
  (hi (a_cont a) - lo (a_cont a) <= 360)%Q ->
  exists r, find_nearest_index a x false = Ok r /\ nearest_on_circle a x r.
Proof.
  intros OK Hci Hasc Hreg Hfull. assert (W := proj1 OK). assert (Hc := proj2 (proj2 OK) Hci).
  destruct (normalize_angle_axis a x W Hc) as ((N1 & N2) & N3 & N4).
  unfold find_nearest_index. set (y := normalize_coordinate a x) in *. clearbody y.
  destruct (c_min_max_value _ W) as [-> ->]. fold (lo (a_cont a)) (hi (a_cont a)).
  assert (AT := fun i v => at_index_iff a i v W).
  assert (LH := fun i => lo_hi _ i W). assert (Sz := wf_size _ W).
  destruct N3 as [t Ht].
  (* generic conclusion: r beats everything from y's point of view *)
  assert (Win : forall r d, 0 <= r < len a ->
     (forall j m, 0 <= j < len a ->
        (Qabs (y - fval (a_cont a) r + inject_Z d * 360) <= Qabs (y - fval (a_cont a) j + inject_Z m * 360))%Q) ->
     nearest_on_circle a x r).
  { intros r d Hr H. exists (fval (a_cont a) r). split; [apply AT; auto|].
    exists (d + t). intros j w m Hj. apply AT in Hj. destruct Hj as [Hj ->].
    specialize (H j (m - t) Hj).
    assert (E1 : (x - fval (a_cont a) r + inject_Z (d + t) * 360 == y - fval (a_cont a) r + inject_Z d * 360)%Q).
    { rewrite inject_Z_plus. lra. }
    assert (E2 : (x - fval (a_cont a) j + inject_Z m * 360 == y - fval (a_cont a) j + inject_Z (m - t) * 360)%Q).
    { unfold Z.sub. rewrite inject_Z_plus, inject_Z_opp. lra. }
    rewrite E1, E2. exact H. }
  unfold is_ascending, is_regular in *. unfold len in *.
  destruct (a_cont a) as [|asc pts|] eqn:E; [destruct W| |discriminate].
  simpl in Hasc. subst asc.
  cbn [c_find_index]. destruct (irr_find_spec true pts y false W) as (r & -> & H).
  cbn [obind]. rewrite Hci, andb_true_r.
  assert (EL : lo (CIrr true pts) = fval (CIrr true pts) 0) by reflexivity.
  assert (EH : hi (CIrr true pts) = fval (CIrr true pts) (zlen pts - 1)) by reflexivity.
  set (f := fval (CIrr true pts)) in *. simpl c_size in *.
  set (n := zlen pts) in *. clearbody n.
  set (L := lo (CIrr true pts)) in *. set (U := hi (CIrr true pts)) in *. clearbody L U f.
  destruct H as [(-> & _ & O)|[NF INS]].
  - rewrite Z.eqb_refl.
    assert (U < y)%Q by (destruct O; subst; lra).
    destruct (Qltb_spec (y - U) (L + 360 - y)) as [Q1|Q1].
    + exists (n - 1). split; auto. apply (Win (n - 1) 0); [lia|].
      intros j m Hj. specialize (LH j Hj).
      change (inject_Z 0) with 0%Q. rewrite <- EH.
      destruct (Z_lt_le_dec m 0) as [M|M].
      * assert (T := turn_le m ltac:(lia)). apply Qabs_case; intro; apply Qabs_case; intro; lra.
      * destruct (Z.eq_dec m 0) as [->|].
        -- change (inject_Z 0) with 0%Q. apply Qabs_case; intro; apply Qabs_case; intro; lra.
        -- assert (T := turn_ge m ltac:(lia)). apply Qabs_case; intro; apply Qabs_case; intro; lra.
    + exists 0. split; auto. apply (Win 0 (-1)); [lia|].
      intros j m Hj. specialize (LH j Hj).
      change (inject_Z (-1)) with (-(1))%Q. rewrite <- EL.
      destruct (Z_lt_le_dec m 0) as [M|M].
      * assert (T := turn_le m ltac:(lia)). apply Qabs_case; intro; apply Qabs_case; intro; lra.
      * destruct (Z.eq_dec m 0) as [->|].
        -- change (inject_Z 0) with 0%Q. apply Qabs_case; intro; apply Qabs_case; intro; lra.
        -- assert (T := turn_ge m ltac:(lia)). apply Qabs_case; intro; apply Qabs_case; intro; lra.
  - destruct NF as [Hr NF]. destruct (Z.eqb_spec r (-1)) as [|_]; [lia|].
    specialize (INS eq_refl). simpl in INS. rewrite <- EL, <- EH in INS.
    exists r. split; auto. apply (Win r 0); auto. intros j m Hj.
    assert (J := LH j Hj). change (inject_Z 0) with 0%Q.
    destruct (NF j Hj) as [D _]. destruct (NF 0 ltac:(lia)) as [D0 _].
    destruct (NF (n - 1) ltac:(lia)) as [D1 _].
    rewrite <- EL in D0. rewrite <- EH in D1.
    assert (E0 : (Qabs (y - f r + 0 * 360) == Qabs (y - f r))%Q) by (apply Qabs_wd; ring).
    rewrite E0.
    rewrite (Qabs_pos (y - L)) in D0 by lra. rewrite (Qabs_neg (y - U)) in D1 by lra.
    destruct (Z_lt_le_dec m 0) as [M|M].
    + assert (T := turn_le m ltac:(lia)). eapply Qle_trans; [exact D1|].
      apply Qabs_case; intro; lra.
    + destruct (Z.eq_dec m 0) as [->|].
      * change (inject_Z 0) with 0%Q. eapply Qle_trans; [exact D|].
        apply Qle_lteq. right. apply Qabs_wd. ring.
      * assert (T := turn_ge m ltac:(lia)). eapply Qle_trans; [exact D0|].
        apply Qabs_case; intro; lra.
Qed.
