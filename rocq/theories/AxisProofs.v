From Verif Require Import Base BaseProofs MathModel MathProofs AxisModel AxisSpec.
Open Scope Z_scope.

(** ** Abstract view: a strictly monotone function on [0, n) *)
Definition mono (f : Z -> Q) (n : Z) (asc : bool) : Prop :=
  forall i j, 0 <= i < j -> j < n -> if asc then (f i < f j)%Q else (f j < f i)%Q.

Definition fval (c : container) (i : Z) : Q :=
  match c_value c i with Some v => v | None => 0%Q end.

(** Well-formed containers: every container a user can obtain. *)
Definition wf (c : container) : Prop :=
  match c with
  | CUndef => False
  | CIrr a pts => 0 < zlen pts /\ mono (fval c) (zlen pts) a
  | CReg a n s st inv =>
      0 < n /\ ~ (st == 0)%Q /\ (inv * st == 1)%Q /\
      (1 < n -> if a then (0 < st)%Q else (st < 0)%Q)
  end.

Lemma wf_size c : wf c -> 0 < c_size c.
Proof. destruct c; simpl; tauto. Qed.

Lemma wf_value c i : wf c -> 0 <= i < c_size c -> c_value c i = Some (fval c i).
Proof.
  destruct c as [|a pts|a n s st inv]; simpl; try tauto.
  intros _ H. unfold fval; simpl. destruct (znth_in_range pts i H) as [x ->]. reflexivity.
Qed.

Lemma mult_pos_mono (a b c : Q) : (a < b)%Q -> (0 < c)%Q -> (a * c < b * c)%Q.
Proof. intros. apply Qmult_lt_compat_r; auto. Qed.

Lemma inject_Z_lt a b : a < b -> (inject_Z a < inject_Z b)%Q.
Proof. rewrite <- Zlt_Qlt. auto. Qed.
Lemma inject_Z_le a b : a <= b -> (inject_Z a <= inject_Z b)%Q.
Proof. rewrite <- Zle_Qle. auto. Qed.
Lemma inject_Z_lt_inv a b : (inject_Z a < inject_Z b)%Q -> a < b.
Proof. rewrite <- Zlt_Qlt. auto. Qed.
Lemma inject_Z_le_inv a b : (inject_Z a <= inject_Z b)%Q -> a <= b.
Proof. rewrite <- Zle_Qle. auto. Qed.
Lemma inject_Z_succ_le a b : a < b -> (inject_Z a + 1 <= inject_Z b)%Q.
Proof.
  intro H. change 1%Q with (inject_Z 1). rewrite <- inject_Z_plus. apply inject_Z_le. lia.
Qed.

Lemma reg_mono a n s st inv :
  wf (CReg a n s st inv) -> mono (fval (CReg a n s st inv)) n a.
Proof.
  intros (Hn & Hst & Hinv & Ha) i j Hij Hj. unfold fval; simpl.
  assert (1 < n) as H1 by lia. specialize (Ha H1).
  assert (L := inject_Z_lt i j ltac:(lia)).
  destruct a.
  - assert (X := mult_pos_mono _ _ st L Ha). lra.
  - assert (0 < - st)%Q as P by lra. assert (X := mult_pos_mono _ _ (- st) L P). lra.
Qed.

Lemma wf_mono c : wf c -> mono (fval c) (c_size c) (c_asc c).
Proof.
  destruct c as [|a pts|a n s st inv]; intro H.
  - destruct H. - apply H. - apply reg_mono; auto.
Qed.

Lemma at_index_iff a i v : wf (a_cont a) ->
  at_index a i v <-> 0 <= i < len a /\ v = fval (a_cont a) i.
Proof.
  intro W. unfold at_index, coordinate_value, len.
  destruct (Z.ltb_spec i 0); simpl.
  - split; [discriminate|lia].
  - rewrite Z.geb_leb. destruct (Z.leb_spec (c_size (a_cont a)) i); simpl.
    + split; [discriminate|lia].
    + rewrite (wf_value _ i W) by lia. split.
      * intro E; inversion E; subst. split; auto; lia.
      * intros [_ ->]; reflexivity.
Qed.

(** ** Nearest index, abstractly *)
Definition nearestF (f : Z -> Q) (n : Z) (x : Q) (r : Z) : Prop :=
  0 <= r < n /\ forall j, 0 <= j < n ->
    (Qabs (x - f r) <= Qabs (x - f j))%Q /\
    (r < j -> (Qabs (x - f r) < Qabs (x - f j))%Q).

Lemma nearest_last_iff a x r : wf (a_cont a) ->
  nearest_last a x r <-> nearestF (fval (a_cont a)) (len a) x r.
Proof.
  intro W. split.
  - intros (v & Hv & H). apply at_index_iff in Hv; auto. destruct Hv as [Hr ->].
    split; auto. intros j Hj. apply H. apply at_index_iff; auto.
  - intros [Hr H]. exists (fval (a_cont a) r). split. apply at_index_iff; auto.
    intros j w Hw. apply at_index_iff in Hw; auto. destruct Hw as [Hj ->]. apply H; auto.
Qed.

Lemma Qabs_le_le a b : (0 <= a)%Q -> (0 <= b)%Q -> (a <= b)%Q -> (Qabs a <= Qabs b)%Q.
Proof. intros. rewrite !Qabs_pos; auto. Qed.

(** Regular containers: position along the axis. *)
Lemma reg_nearest n s st inv x :
  ~ (st == 0)%Q -> (inv * st == 1)%Q ->
  let p := ((x - s) * inv)%Q in
  0 <= round_away p < n ->
  nearestF (fun i => s + inject_Z i * st)%Q n x (round_away p).
Proof.
  intros Hst Hinv p Hr. split; auto. intros j Hj.
  set (r := round_away p) in *.
  assert (Hx : forall i, (x - (s + inject_Z i * st) == (p - inject_Z i) * st)%Q).
  { intro i. unfold p.
    assert (((x - s) * inv - inject_Z i) * st == (x - s) * (inv * st) - inject_Z i * st)%Q as -> by ring.
    rewrite Hinv. ring. }
  assert (Ha : (0 < Qabs st)%Q).
  { destruct (Qlt_le_dec 0 (Qabs st)) as [|L]; auto. exfalso. apply Hst.
    assert (Qabs st == 0)%Q as E by (apply Qle_antisym; auto; apply Qabs_nonneg).
    assert (H1 := Qle_Qabs st). assert (H2 := Qle_Qabs (- st)). rewrite Qabs_opp in H2. lra. }
  rewrite (Hx r), (Hx j), !Qabs_Qmult.
  assert (Hcmp : (Qabs (p - inject_Z r) <= Qabs (p - inject_Z j))%Q /\
                 (r < j -> (Qabs (p - inject_Z r) < Qabs (p - inject_Z j))%Q)).
  { destruct (Z.eq_dec j r) as [->|Hne]. { split. apply Qle_refl. lia. }
    destruct (Qlt_le_dec p 0) as [Hp|Hp].
    - destruct (round_away_neg p Hp) as [A B]. fold r in A, B.
      assert (r = 0) as E.
      { assert (inject_Z r < inject_Z 1)%Q as L by (change (inject_Z 1) with 1%Q; lra).
        apply inject_Z_lt_inv in L. lia. }
      assert (r < j) by lia. assert (G := inject_Z_succ_le r j ltac:(lia)).
      rewrite E in *. change (inject_Z 0) with 0%Q in *.
      rewrite (Qabs_neg (p - 0)) by lra. rewrite (Qabs_neg (p - inject_Z j)) by lra.
      split; [lra|intros; lra].
    - destruct (round_away_nonneg p Hp) as [A B]. fold r in A, B.
      assert (C : (Qabs (p - inject_Z r) <= 1#2)%Q) by (apply Qabs_case; intros; lra).
      destruct (Z.lt_ge_cases r j) as [L|L].
      + assert (G := inject_Z_succ_le r j L).
        rewrite (Qabs_neg (p - inject_Z j)) by lra. split; [lra|intros; lra].
      + assert (G := inject_Z_succ_le j r ltac:(lia)).
        rewrite (Qabs_pos (p - inject_Z j)) by lra. split; [|lia].
        lra. }
  destruct Hcmp as [H1 H2]. split.
  - apply Qmult_le_compat_r; auto. apply Qabs_nonneg.
  - intro L. apply Qmult_lt_compat_r; auto.
Qed.

(** End points: outside the axis the nearest point is the end point. *)
Lemma nearest_before_first f n asc x :
  0 < n -> mono f n asc ->
  (if asc then (x <= f 0%Z)%Q else (f 0%Z <= x)%Q) -> nearestF f n x 0.
Proof.
  intros Hn M Hx. split; [lia|]. intros j Hj.
  destruct (Z.eq_dec j 0) as [->|Hne]. { split; [apply Qle_refl|lia]. }
  assert (Mj := M 0 j ltac:(lia) ltac:(lia)).
  destruct asc.
  - rewrite (Qabs_neg (x - f 0%Z)), (Qabs_neg (x - f j)) by lra. split; intros; lra.
  - rewrite (Qabs_pos (x - f 0%Z)), (Qabs_pos (x - f j)) by lra. split; intros; lra.
Qed.

Lemma nearest_after_last f n asc x :
  0 < n -> mono f n asc ->
  (if asc then (f (n - 1)%Z <= x)%Q else (x <= f (n - 1)%Z))%Q -> nearestF f n x (n - 1).
Proof.
  intros Hn M Hx. split; [lia|]. intros j Hj.
  destruct (Z.eq_dec j (n - 1)) as [->|Hne]. { split; [apply Qle_refl|lia]. }
  assert (Mj := M j (n - 1) ltac:(lia) ltac:(lia)).
  destruct asc.
  - rewrite (Qabs_pos (x - f (n - 1)%Z)), (Qabs_pos (x - f j)) by lra. split; [lra|lia].
  - rewrite (Qabs_neg (x - f (n - 1)%Z)), (Qabs_neg (x - f j)) by lra. split; [lra|lia].
Qed.

(** ** lower_bound on monotone lists *)
Lemma lower_bound_range cmp l x : 0 <= lower_bound cmp l x <= zlen l.
Proof.
  unfold zlen. induction l as [|e t IH]; cbn [lower_bound]; [simpl; lia|].
  destruct (cmp e x); cbn [length]; lia.
Qed.

Lemma znth_cons {A} (e : A) t i : 0 < i -> znth (e :: t) i = znth t (i - 1).
Proof.
  intro H. unfold znth. destruct (Z.ltb_spec i 0); [lia|]. destruct (Z.ltb_spec (i-1) 0); [lia|].
  replace (Z.to_nat i) with (S (Z.to_nat (i - 1))) by lia. reflexivity.
Qed.

Lemma lower_bound_before cmp l x i v :
  0 <= i < lower_bound cmp l x -> znth l i = Some v -> cmp v x = true.
Proof.
  revert i. induction l as [|e t IH]; intros i; cbn [lower_bound]; [lia|].
  destruct (cmp e x) eqn:E; [|lia]. intros Hi Hv.
  destruct (Z.eq_dec i 0) as [->|Hne].
  - unfold znth in Hv; simpl in Hv. congruence.
  - rewrite znth_cons in Hv by lia. apply (IH (i - 1)); [lia|auto].
Qed.

Lemma lower_bound_at cmp l x v :
  znth l (lower_bound cmp l x) = Some v -> cmp v x = false.
Proof.
  induction l as [|e t IH]; cbn [lower_bound].
  - unfold znth; simpl. discriminate.
  - destruct (cmp e x) eqn:E; intro Hv.
    + assert (H := lower_bound_range cmp t x). rewrite znth_cons in Hv by lia.
      replace (1 + lower_bound cmp t x - 1) with (lower_bound cmp t x) in Hv by lia. auto.
    + unfold znth in Hv; simpl in Hv. congruence.
Qed.

Lemma cmp_of_true asc a b : cmp_of asc a b = true <-> (if asc then (a < b)%Q else (b < a)%Q).
Proof. destruct asc; simpl; apply Qltb_true. Qed.
Lemma cmp_of_false asc a b : cmp_of asc a b = false <-> (if asc then (b <= a)%Q else (a <= b)%Q).
Proof. destruct asc; simpl; apply Qltb_false. Qed.

Lemma irr_find_spec asc pts x bounded :
  wf (CIrr asc pts) ->
  let f := fval (CIrr asc pts) in
  exists r, irr_find_index asc pts x bounded = Ok r /\
   ((r = -1 /\ bounded = false /\
     (if asc then (x < f 0%Z \/ f (zlen pts - 1)%Z < x)%Q
             else (f 0%Z < x \/ x < f (zlen pts - 1)%Z)%Q)) \/
    nearestF f (zlen pts) x r /\
    (bounded = false ->
     (if asc then (f 0%Z <= x <= f (zlen pts - 1)%Z)%Q
             else (f (zlen pts - 1)%Z <= x <= f 0%Z)%Q))).
Proof.
  intros W f. assert (M : mono f (zlen pts) asc) by exact (wf_mono _ W).
  destruct W as [Hn _].
  assert (V : forall i, 0 <= i < zlen pts -> znth pts i = Some (f i)).
  { intros i Hi. unfold f, fval; simpl. destruct (znth_in_range pts i Hi) as [y ->]; auto. }
  clearbody f. unfold irr_find_index.
  assert (HR := lower_bound_range (cmp_of asc) pts x).
  set (it := lower_bound (cmp_of asc) pts x) in *.
  assert (HB : forall i, 0 <= i < it -> cmp_of asc (f i) x = true).
  { intros i Hi. eapply lower_bound_before; [exact Hi|]. apply V. lia. }
  assert (HA : it < zlen pts -> cmp_of asc (f it) x = false).
  { intros Hi. apply (lower_bound_at _ pts). apply V. fold it. lia. }
  assert (HA' : forall i, it <= i < zlen pts -> cmp_of asc (f i) x = false).
  { intros i Hi. specialize (HA ltac:(lia)). apply cmp_of_false. apply cmp_of_false in HA.
    destruct (Z.eq_dec i it) as [->|]; auto.
    assert (Mi := M it i ltac:(lia) ltac:(lia)). destruct asc; lra. }
  destruct (Z.eqb_spec it 0) as [E0|E0].
  - rewrite (V 0) by lia.
    assert (C0 := HA' 0 ltac:(lia)). apply cmp_of_false in C0.
    destruct (cmp_of asc x (f 0%Z)) eqn:C.
    + apply cmp_of_true in C. destruct bounded.
      * exists 0. split; auto. right. split; [|discriminate].
        apply (nearest_before_first f _ asc); [exact Hn|exact M|destruct asc; lra].
      * exists (-1). split; auto. left. repeat split; auto. destruct asc; left; auto.
    + apply cmp_of_false in C. exists 0. split; auto. right. split.
      * apply (nearest_before_first f _ asc); [exact Hn|exact M|destruct asc; lra].
      * intros _.
        destruct (Z.eq_dec (zlen pts - 1) 0) as [->|]; [destruct asc; lra|].
        assert (Mi := M 0 (zlen pts - 1) ltac:(lia) ltac:(lia)). destruct asc; lra.
  - assert (CL := HB (it - 1) ltac:(lia)). apply cmp_of_true in CL.
    destruct (Z.eqb_spec it (zlen pts)) as [E1|E1].
    + rewrite (V (it - 1)) by lia.
      assert (cmp_of asc (f (it - 1)%Z) x = true) as -> by (apply cmp_of_true; auto).
      rewrite E1 in CL. destruct bounded.
      * exists (zlen pts - 1). split; auto. right. split; [|discriminate].
        apply (nearest_after_last f _ asc); [exact Hn|exact M|destruct asc; lra].
      * exists (-1). split; auto. left. repeat split; auto. destruct asc; right; auto.
    + rewrite (V (it - 1)), (V it) by lia.
      assert (CR := HA' it ltac:(lia)). apply cmp_of_false in CR.
      assert (I : (if asc then (f 0%Z <= x <= f (zlen pts - 1)%Z)%Q
             else (f (zlen pts - 1)%Z <= x <= f 0%Z)%Q)).
      { assert (L0 := HB 0 ltac:(lia)). apply cmp_of_true in L0.
        assert (R0 := HA' (zlen pts - 1) ltac:(lia)). apply cmp_of_false in R0.
        destruct asc; lra. }
      assert (Far : forall j, 0 <= j < zlen pts ->
        (j <= it - 1 -> (Qabs (x - f (it - 1)%Z) <= Qabs (x - f j))%Q) /\
        (it <= j -> (Qabs (x - f it) <= Qabs (x - f j))%Q /\
                    (it < j -> (Qabs (x - f it) < Qabs (x - f j))%Q))).
      { intros j Hj. split.
        - intro Lj. destruct (Z.eq_dec j (it - 1)) as [->|]; [apply Qle_refl|].
          assert (Mj := M j (it - 1) ltac:(lia) ltac:(lia)).
          destruct asc.
          + rewrite (Qabs_pos (x - f (it - 1)%Z)), (Qabs_pos (x - f j)) by lra. lra.
          + rewrite (Qabs_neg (x - f (it - 1)%Z)), (Qabs_neg (x - f j)) by lra. lra.
        - intro Lj. destruct (Z.eq_dec j it) as [->|]. { split; [apply Qle_refl|lia]. }
          assert (Mj := M it j ltac:(lia) ltac:(lia)).
          destruct asc.
          + rewrite (Qabs_neg (x - f it)), (Qabs_neg (x - f j)) by lra. split; intros; lra.
          + rewrite (Qabs_pos (x - f it)), (Qabs_pos (x - f j)) by lra. split; intros; lra. }
      destruct (Qltb_spec (Qabs (x - f (it - 1)%Z)) (Qabs (x - f it))) as [D|D].
      * exists (it - 1). split; auto. right. split; auto. split; [lia|]. intros j Hj.
        destruct (Far j Hj) as [F1 F2]. destruct (Z.le_gt_cases j (it - 1)) as [L|L].
        -- split; [apply F1; lia|lia].
        -- destruct (F2 ltac:(lia)) as [F3 F4]. split; intros; lra.
      * exists it. split; auto. right. split; auto. split; [lia|]. intros j Hj.
        destruct (Far j Hj) as [F1 F2]. destruct (Z.le_gt_cases j (it - 1)) as [L|L].
        -- split; [|lia]. assert (A := F1 ltac:(lia)). lra.
        -- apply F2; lia.
Qed.

(** ** Common characterisation of [c_find_index] *)
(** Strictly outside the closed interval spanned by the two end points. *)
Definition out_of_ends (f : Z -> Q) (n : Z) (asc : bool) (x : Q) : Prop :=
  if asc then (x < f 0%Z \/ f (n - 1)%Z < x)%Q else (f 0%Z < x \/ x < f (n - 1)%Z)%Q.

Definition is_irr (c : container) : Prop := match c with CIrr _ _ => True | _ => False end.

Lemma c_find_spec c x bounded : wf c ->
  exists r, c_find_index c x bounded = Ok r /\
   ((r = -1 /\ bounded = false /\
     (1 < c_size c \/ is_irr c -> out_of_ends (fval c) (c_size c) (c_asc c) x) /\
     ~ (x == fval c 0)%Q) \/
    nearestF (fval c) (c_size c) x r).
Proof.
  intros W. destruct c as [|a pts|a m s st inv]; [destruct W| |].
  - destruct (irr_find_spec a pts x bounded W) as (r & Hr & H). exists r. split; auto.
    destruct H as [(A & B & C)|(A & _)]; auto. left. split; [auto|]. split; [auto|]. split; [auto|].
    intro E. assert (M := wf_mono _ W). simpl in M. destruct W as [Hn _].
    simpl c_size. set (n := zlen pts) in *. set (f := fval (CIrr a pts)) in *.
    destruct (Z.eq_dec n 1) as [E1|E1].
    + rewrite E1 in C. change (1 - 1) with 0 in C. destruct a; lra.
    + assert (Mi := M 0 (n - 1) ltac:(lia) ltac:(lia)). destruct a; lra.
  - simpl c_find_index. unfold reg_find_index.
    assert (M := wf_mono _ W). simpl in M.
    destruct W as (Hn & Hst & Hinv & Ha).
    set (p := ((x - s) * inv)%Q) in *.
    assert (Hx : forall i, (x - (s + inject_Z i * st) == (p - inject_Z i) * st)%Q).
    { intro i. unfold p.
      assert (((x - s) * inv - inject_Z i) * st == (x - s) * (inv * st) - inject_Z i * st)%Q as -> by ring.
      rewrite Hinv. ring. }
    assert (Hf : forall i, (fval (CReg a m s st inv) i == s + inject_Z i * st)%Q)
      by (intro; reflexivity).
    assert (Hnear : 0 <= round_away p < m ->
                    nearestF (fval (CReg a m s st inv)) m x (round_away p)).
    { intro Hr. apply (reg_nearest m s st inv x Hst Hinv). exact Hr. }
    simpl c_size. simpl c_asc.
    set (f := fval (CReg a m s st inv)) in *. clearbody f p.
    assert (Hsingle : m = 1 -> nearestF f m x 0).
    { intro E. split; [lia|]. intros j Hj. assert (j = 0) by lia. subst j.
      split; [apply Qle_refl|lia]. }
    destruct (Z.ltb_spec (round_away p) 0) as [L|L].
    + (* before the axis *)
      assert (Hp : (p < 0)%Q).
      { destruct (Qlt_le_dec p 0) as [|G]; auto. exfalso.
        destruct (round_away_nonneg p G) as [A B].
        assert (inject_Z (-1) < inject_Z (round_away p))%Q as Q1 by (change (inject_Z (-1)) with (-(1))%Q; lra).
        apply inject_Z_lt_inv in Q1. lia. }
      assert (X0 := Hx 0). assert (F0 := Hf 0). change (inject_Z 0) with 0%Q in X0, F0.
      destruct bounded.
      * exists 0. split; auto. right.
        destruct (Z.eq_dec m 1) as [E1|E1]; [auto|].
        specialize (Ha ltac:(lia)).
        apply (nearest_before_first f _ a); auto. destruct a; nra.
      * exists (-1). split; auto. left. split; [auto|]. split; [auto|]. split.
        -- intros [E1|[]]. specialize (Ha E1). unfold out_of_ends.
           destruct a; left; nra.
        -- intro E. rewrite F0 in E. assert ((p - 0) * st == 0)%Q as Z0 by lra.
           apply Qmult_integral in Z0. destruct Z0; [lra|tauto].
    + rewrite Z.geb_leb. destruct (Z.leb_spec m (round_away p)) as [G|G].
      * assert (Hp : (0 <= p)%Q).
        { destruct (Qlt_le_dec p 0) as [Q0|]; auto. exfalso.
          destruct (round_away_neg p Q0) as [A B].
          assert (inject_Z (round_away p) < inject_Z 1)%Q as Q1 by (change (inject_Z 1) with 1%Q; lra).
          apply inject_Z_lt_inv in Q1. lia. }
        destruct (round_away_nonneg p Hp) as [A B].
        assert (Hm : (inject_Z (m - 1) < p)%Q).
        { assert (Q2 := inject_Z_le m (round_away p) G).
          assert (Q3 := inject_Z_succ_le (m - 1) m ltac:(lia)). lra. }
        assert (X0 := Hx (m - 1)). assert (F0 := Hf (m - 1)).
        destruct bounded.
        -- exists (m - 1). split; auto. right.
           destruct (Z.eq_dec m 1) as [E1|E1]; [rewrite E1 in *; apply Hsingle; auto|].
           specialize (Ha ltac:(lia)).
           apply (nearest_after_last f _ a); auto. destruct a; nra.
        -- exists (-1). split; auto. left. split; [auto|]. split; [auto|]. split.
           ++ intros [E1|[]]. specialize (Ha E1). unfold out_of_ends.
              destruct a; right; nra.
           ++ intro E. rewrite (Hf 0) in E. change (inject_Z 0) with 0%Q in E.
              assert (X1 := Hx 0). change (inject_Z 0) with 0%Q in X1.
              assert ((p - 0) * st == 0)%Q as Z0 by lra.
              apply Qmult_integral in Z0.
              assert (0 <= inject_Z (m - 1))%Q by (change 0%Q with (inject_Z 0); apply inject_Z_le; lia).
              destruct Z0; [lra|tauto].
      * exists (round_away p). split; [reflexivity|]. right. apply Hnear. lia.
Qed.

(** ** Every reachable axis is well formed *)
Definition axis_ok (a : axis) : Prop :=
  wf (a_cont a) /\
  (a_circle a = None \/ a_circle a = Some 360%Q) /\
  (a_is_circle a = true -> a_circle a = Some 360%Q).

Lemma sorted_step asc l :
  has_adjacent_equal l = false -> is_sorted (cmp_of asc) l = true ->
  forall i a b, znth l i = Some a -> znth l (i + 1) = Some b ->
    if asc then (a < b)%Q else (b < a)%Q.
Proof.
  induction l as [|e t IH]; intros H1 H2 i a b Ha Hb.
  - apply znth_Some in Ha. unfold zlen in Ha; simpl in Ha; lia.
  - assert (Hi := znth_Some _ _ _ Ha). destruct t as [|e' t'].
    + apply znth_Some in Hb. unfold zlen in Hb; simpl in Hb; lia.
    + cbn [has_adjacent_equal is_sorted] in H1, H2.
      apply orb_false_iff in H1. apply andb_true_iff in H2.
      destruct H1 as [H1 H1'], H2 as [H2 H2'].
      destruct (Z.eq_dec i 0) as [->|Hne].
      * cbv in Ha. cbv in Hb. injection Ha as <-. injection Hb as <-.
        apply Qeqb_false in H1. apply negb_true_iff in H2. apply cmp_of_false in H2.
        destruct asc; destruct (Q_dec e e') as [[?|?]|?]; auto; exfalso; try tauto; lra.
      * rewrite znth_cons in Ha, Hb by lia.
        apply (IH H1' H2' (i - 1) a b); auto.
        replace (i - 1 + 1) with (i + 1 - 1) by lia. auto.
Qed.

Lemma mono_of_step f n (asc : bool) :
  (forall i, 0 <= i -> i + 1 < n -> if asc then (f i < f (i + 1)%Z)%Q else (f (i + 1)%Z < f i)%Q) ->
  mono f n asc.
Proof.
  intros H i j Hij Hj.
  assert (G : forall k : nat, i + 1 + Z.of_nat k < n ->
     if asc then (f i < f (i + 1 + Z.of_nat k)%Z)%Q else (f (i + 1 + Z.of_nat k)%Z < f i)%Q).
  { induction k as [|k IH]; intro Hk.
    - rewrite Z.add_0_r. apply H; lia.
    - specialize (IH ltac:(lia)). assert (St := H (i + 1 + Z.of_nat k) ltac:(lia) ltac:(lia)).
      replace (i + 1 + Z.of_nat (S k)) with (i + 1 + Z.of_nat k + 1) by lia.
      destruct asc; lra. }
  specialize (G (Z.to_nat (j - i - 1)) ltac:(lia)).
  replace (i + 1 + Z.of_nat (Z.to_nat (j - i - 1))) with j in G by lia. exact G.
Qed.

Lemma wf_irr_of_monotonic pts asc :
  0 < zlen pts -> c_is_monotonic (CIrr asc pts) = true -> wf (CIrr asc pts).
Proof.
  intros Hn H. simpl in H. apply andb_true_iff in H. destruct H as [H1 H2].
  apply negb_true_iff in H1. split; auto. apply mono_of_step. intros i Hi Hi'.
  unfold fval; simpl.
  destruct (znth_in_range pts i ltac:(lia)) as [a Ea].
  destruct (znth_in_range pts (i + 1) ltac:(lia)) as [b Eb]. rewrite Ea, Eb.
  eapply sorted_step; eauto.
Qed.

Lemma mk_regular_wf s e n c : 0 < n -> mk_regular s e n = Ok c -> wf c /\ c_size c = n.
Proof.
  intros Hn. unfold mk_regular.
  destruct (Z.eqb_spec n 0); [lia|].
  destruct (Qeqb_spec s e) as [|Hne]; [discriminate|].
  intro E. injection E as <-.
  set (st := (if n =? 1 then e - s else (e - s) / inject_Z (n - 1))%Q).
  assert (Hst : ~ (st == 0)%Q).
  { unfold st. destruct (Z.eqb_spec n 1).
    - intro H. apply Hne. lra.
    - intro H.
      assert (0 < inject_Z (n - 1))%Q as P by (change 0%Q with (inject_Z 0); apply inject_Z_lt; lia).
      apply Hne. assert (e - s == (e - s) / inject_Z (n-1) * inject_Z (n-1))%Q as X by (field; lra).
      rewrite H in X. lra. }
  split; [|reflexivity]. clearbody st. simpl. repeat split; auto.
  - field. exact Hst.
  - intro H1. unfold calc_ascending. destruct (Z.ltb_spec n 2); [lia|].
    change (inject_Z 0) with 0%Q. change (inject_Z 1) with 1%Q.
    destruct (Qltb_spec (s + 0 * st) (s + 1 * st)).
    + lra.
    + destruct (Q_dec st 0) as [[?|?]|?]; try lra.
Qed.

Lemma finish_axis_ok circ eps c a :
  (circ = None \/ circ = Some 360%Q) ->
  (c_is_monotonic c = true -> wf c) ->
  finish_axis circ eps c = Ok a -> axis_ok a /\ a_cont a = c.
Proof.
  intros Hc Hw. unfold finish_axis.
  destruct (c_size c =? 0); [discriminate|].
  destruct (c_is_monotonic c) eqn:E; simpl; [|discriminate].
  intro H; injection H as <-. split; auto. split; [auto|]. split; [exact Hc|]. simpl.
  destruct Hc as [->| ->]; simpl; [discriminate|auto].
Qed.

Lemma mk_irregular_mono pts c : mk_irregular pts = Ok c -> c_is_monotonic c = true -> wf c.
Proof.
  unfold mk_irregular. destruct (Z.eqb_spec (zlen pts) 0); [discriminate|].
  intro E; injection E as <-. intro H. apply wf_irr_of_monotonic; auto.
  assert (0 <= zlen pts) by (unfold zlen; lia). lia.
Qed.

Lemma axis_of_values_ok l eps circ a :
  (0 <= eps)%Q -> axis_of_values l eps circ = Ok a -> axis_ok a.
Proof.
  intros He. unfold axis_of_values, init_from_values.
  set (cc := if circ then Some 360%Q else None).
  set (l' := if circ then normalize_longitude 360 l else l). clearbody l'.
  assert (Hcc : cc = None \/ cc = Some 360%Q) by (unfold cc; destruct circ; auto).
  destruct (is_evenly_spaced l' eps) eqn:Ev.
  - destruct (mk_regular (hd 0%Q l') (last l' 0%Q) (zlen l')) as [c| |] eqn:Er; simpl; try discriminate.
    intro H. apply (finish_axis_ok cc eps c a Hcc) in H; [tauto|]. intros _.
    eapply mk_regular_wf; [|exact Er].
    destruct l'; simpl in Ev; [discriminate|]. unfold zlen; simpl; lia.
  - destruct (mk_irregular l') as [c| |] eqn:Er; simpl; try discriminate.
    intro H. apply (finish_axis_ok cc eps c a Hcc) in H; [tauto|].
    eapply mk_irregular_mono; eauto.
Qed.

Lemma axis_regular_ok s e n eps circ a :
  0 < n -> axis_regular s e n eps circ = Ok a -> axis_ok a.
Proof.
  intros Hn. unfold axis_regular.
  assert (Hcc : (if circ then Some 360%Q else None) = None \/
                (if circ then Some 360%Q else None) = Some 360%Q) by (destruct circ; auto).
  destruct (mk_regular s e n) as [c| |] eqn:Er; simpl; try discriminate.
  intro H. apply (finish_axis_ok _ eps c a Hcc) in H; [tauto|]. intros _.
  eapply mk_regular_wf; eauto.
Qed.

Lemma znth_rev {A} (l : list A) i :
  0 <= i < zlen l -> znth (rev l) i = znth l (zlen l - 1 - i).
Proof.
  intro H. unfold znth. destruct (Z.ltb_spec i 0); [lia|].
  destruct (Z.ltb_spec (zlen l - 1 - i) 0); [lia|].
  unfold zlen in *. revert i H H0 H1. induction l as [|e t IH]; intros; simpl length in *; [lia|].
  simpl rev. destruct (Z.eq_dec i (Z.of_nat (S (length t)) - 1)) as [->|].
  - rewrite nth_error_app2; rewrite rev_length; [|lia].
    replace (Z.to_nat (Z.of_nat (S (length t)) - 1) - length t)%nat with 0%nat by lia.
    replace (Z.to_nat (Z.of_nat (S (length t)) - 1 - (Z.of_nat (S (length t)) - 1))) with 0%nat by lia.
    reflexivity.
  - rewrite nth_error_app1 by (rewrite rev_length; lia).
    rewrite IH by lia.
    replace (Z.to_nat (Z.of_nat (S (length t)) - 1 - i)) with (S (Z.to_nat (Z.of_nat (length t) - 1 - i))) by lia.
    reflexivity.
Qed.

Lemma zlen_rev {A} (l : list A) : zlen (rev l) = zlen l.
Proof. unfold zlen. rewrite rev_length. reflexivity. Qed.

Lemma flip_value c i : wf c -> 0 <= i < c_size c ->
  (fval (c_flip c) i == fval c (c_size c - 1 - i))%Q.
Proof.
  intros W Hi. destruct c as [|a pts|a n s st inv]; [destruct W| |].
  - unfold fval; simpl in *. rewrite znth_rev by auto. reflexivity.
  - unfold fval; simpl in *. unfold Z.sub. rewrite !inject_Z_plus, !inject_Z_opp. ring.
Qed.

Lemma flip_size c : c_size (c_flip c) = c_size c.
Proof. destruct c; simpl; auto. apply zlen_rev. Qed.

Lemma flip_wf c : wf c -> wf (c_flip c).
Proof.
  intros W. destruct c as [|a pts|a n s st inv]; [destruct W| |].
  - assert (V := fun i => flip_value _ i W). simpl in V.
    destruct W as [Hn M]. simpl. rewrite zlen_rev. split; auto.
    intros i j Hij Hj.
    assert (Vi := V i ltac:(lia)). assert (Vj := V j ltac:(lia)).
    assert (Mm := M (zlen pts - 1 - j) (zlen pts - 1 - i) ltac:(lia) ltac:(lia)).
    destruct a; simpl in *; lra.
  - destruct W as (Hn & Hst & Hinv & Ha). simpl. repeat split; auto.
    + intro H. apply Hst. lra.
    + rewrite <- Hinv. ring.
    + intro H. specialize (Ha H). destruct a; simpl; lra.
Qed.

Lemma pickle_ok a b : axis_ok a -> setstate (getstate a) = Ok b -> axis_ok b.
Proof.
  intros (W & C1 & C2). unfold getstate. destruct (a_cont a) as [|asc pts|asc n s st inv]; [destruct W| |].
  - cbn [setstate]. unfold mk_irregular. destruct W as [Hn M].
    destruct (Z.eqb_spec (zlen pts) 0); [lia|].
    intro E; injection E as <-. split; [|split; simpl; destruct (a_is_circle a); auto; discriminate].
    simpl. split; auto. change (fval (CIrr (calc_ascending (zlen pts) (znth pts 0) (znth pts 1)) pts))
      with (fval (CIrr asc pts)).
    unfold calc_ascending. destruct (Z.ltb_spec (zlen pts) 2).
    + intros i j Hij Hj. lia.
    + destruct (znth_in_range pts 0 ltac:(lia)) as [x0 E0].
      destruct (znth_in_range pts 1 ltac:(lia)) as [x1 E1]. rewrite E0, E1.
      assert (M01 := M 0 1 ltac:(lia) ltac:(lia)). unfold fval in M01; simpl in M01.
      rewrite E0, E1 in M01.
      destruct (Qltb_spec x0 x1); destruct asc; auto; exfalso; lra.
  - cbn [setstate]. destruct W as (Hn & Hst & Hinv & Ha).
    destruct (mk_regular s (s + inject_Z (n - 1) * st) n) as [c| |] eqn:E; simpl; try discriminate.
    intro H; injection H as <-. apply mk_regular_wf in E; [|lia].
    split; [simpl; tauto|split; simpl; destruct (a_is_circle a); auto; discriminate].
Qed.

Lemma reachable_ok a : reachable a -> axis_ok a.
Proof.
  induction 1.
  - eapply axis_of_values_ok; eauto.
  - eapply axis_regular_ok; eauto.
  - destruct IHreachable as (W & C1 & C2). split; [|split]; simpl; auto. apply flip_wf; auto.
  - eapply pickle_ok; eauto.
Qed.
