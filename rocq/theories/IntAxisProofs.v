From Verif Require Import Base BaseProofs MathModel MathProofs AxisModel AxisSpec AxisProofs AxisProofs2 AxisProofs3 AxisProofs6 IntAxisModel.
Open Scope Z_scope.
Ltac Zify.zify_post_hook ::= Z.to_euclidean_division_equations.

Definition iv (c : icontainer) (i : Z) : Z :=
  match c with
  | IIrr _ pts => match znth pts i with Some v => v | None => 0 end
  | IReg _ _ s st _ => s + i * st
  end.

(** Containers for which the search is right. *)
Definition i_wf (c : icontainer) : Prop :=
  match c with
  | IIrr a pts => 0 < zlen pts /\
      forall i j, 0 <= i < j -> j < zlen pts -> if a then iv c i < iv c j else iv c j < iv c i
  | IReg a n s st s2 => 1 < n /\ s2 = Z.abs st / 2 /\ if a then 0 < st else st < 0
  end.

Lemma i_at_iff c i v : i_at c i v <-> 0 <= i < i_size c /\ v = iv c i.
Proof.
  unfold i_at, i_coordinate_value. destruct (Z.ltb_spec i 0); simpl.
  { split; [discriminate|lia]. }
  rewrite Z.geb_leb. destruct (Z.leb_spec (i_size c) i); simpl.
  { split; [discriminate|lia]. }
  destruct c as [a pts|a n s st s2]; simpl in *.
  - destruct (znth_in_range pts i ltac:(lia)) as [u Hu]. rewrite Hu. split.
    + intro E; injection E; auto. + intros [_ ->]; auto.
  - split; [intro E; injection E; auto|]. intros [_ ->]; auto.
Qed.

Lemma i_mono c : i_wf c -> forall i j, 0 <= i < j -> j < i_size c ->
  if i_asc c then iv c i < iv c j else iv c j < iv c i.
Proof.
  destruct c as [a pts|a n s st s2]; simpl; intro W; [apply W|].
  destruct W as (Hn & _ & Hs). intros i j Hij Hj. destruct a; nia.
Qed.

Lemma round_pos st num : 0 < st ->
  let r := i_round (st / 2) num st in
  (0 <= num -> 0 <= r /\ 2 * (r * st) - st <= 2 * num < 2 * (r * st) + st) /\
  (num < 0 -> r <= 0 /\ 2 * (r * st) - st < 2 * num <= 2 * (r * st) + st).
Proof.
  intros Hs r. unfold i_round in r.
  destruct (Z.gtb_spec num 0) as [G|G].
  - split; [|lia]. intros _.
    assert (E : r = (num + st / 2) / st) by (unfold r; apply Z.quot_div_nonneg; lia).
    clearbody r. subst r.
    assert (A := Z.mul_div_le (num + st / 2) st Hs).
    assert (B := Z.mul_succ_div_gt (num + st / 2) st Hs).
    assert (C : 0 <= (num + st / 2) / st) by (apply Z.div_pos; lia).
    rewrite Z.mul_succ_r in B. rewrite (Z.mul_comm st) in A, B.
    set (k := (num + st / 2) / st * st) in *. clearbody k. lia.
  - assert (E : r = - ((- num + st / 2) / st)).
    { unfold r. replace (num - st / 2) with (- (- num + st / 2)) by ring.
      rewrite Z.quot_opp_l by lia. f_equal. apply Z.quot_div_nonneg; lia. }
    clearbody r.
    assert (A := Z.mul_div_le (- num + st / 2) st Hs).
    assert (B := Z.mul_succ_div_gt (- num + st / 2) st Hs).
    assert (C : 0 <= (- num + st / 2) / st) by (apply Z.div_pos; lia).
    rewrite Z.mul_succ_r in B. rewrite (Z.mul_comm st) in A, B.
    set (q := (- num + st / 2) / st) in *. clearbody q. subst r.
    rewrite Z.mul_opp_l. split.
    + intro. assert (num = 0) by lia. subst num.
      assert (q * st < st) by lia. assert (q = 0) by nia. subst q. lia.
    + intro. set (k := q * st) in *. clearbody k. lia.
Qed.

Lemma round_neg st num s2 : st < 0 -> s2 = Z.abs st / 2 -> i_round s2 num st = i_round s2 (- num) (- st).
Proof.
  intros Hs E. assert (0 <= s2) by lia. unfold i_round.
  destruct (Z.gtb_spec num 0), (Z.gtb_spec (- num) 0); try lia.
  - replace st with (- - st) at 1 by ring. rewrite Z.quot_opp_r by lia.
    replace (- num - s2) with (- (num + s2)) by ring. rewrite Z.quot_opp_l by lia. reflexivity.
  - replace st with (- - st) at 1 by ring. rewrite Z.quot_opp_r by lia.
    rewrite <- Z.quot_opp_l by lia. f_equal. ring.
  - assert (num = 0) by lia. subst num. simpl. 
    assert (Q0 : Z.quot s2 (- st) = 0) by (apply Z.quot_small; lia).
    rewrite Z.quot_opp_r in Q0 by lia.
    rewrite Z.quot_opp_r, !Z.quot_opp_l by lia. lia.
Qed.

(** Regular axis: the chosen index is nearest, or the coordinate is half a step or
    more beyond an end. *)
Lemma i_reg_find a n s st s2 x bounded : i_wf (IReg a n s st s2) ->
  exists r, i_find_index (IReg a n s st s2) x bounded = Ok r /\ (if (2 * ((x - s) * Z.sgn st) <=? - Z.abs st)
   then r = (if bounded then 0 else -1)
   else if ((2 * n - 1) * Z.abs st <=? 2 * ((x - s) * Z.sgn st))
   then r = (if bounded then n - 1 else -1)
   else i_nearest_last (IReg a n s st s2) x r).
Proof.
  intros (Hn & Hs2 & Hst).
  assert (Hnz : st <> 0) by (destruct a; lia).
  cbn [i_find_index].
  set (num := (x - s) * Z.sgn st).
  assert (R : i_round s2 (x - s) st = i_round (Z.abs st / 2) num (Z.abs st)).
  { destruct (Z.lt_trichotomy st 0) as [L|[L|L]]; [|lia|].
    - rewrite round_neg by auto. subst s2. unfold num. rewrite Z.sgn_neg by lia. 
      f_equal; lia.
    - subst s2. unfold num. rewrite Z.sgn_pos by lia. f_equal; lia. }
  rewrite R. destruct (round_pos (Z.abs st) num ltac:(lia)) as [P1 P2].
  set (r := i_round (Z.abs st / 2) num (Z.abs st)) in *. clearbody r. clear R.
  set (u := Z.abs st) in *. assert (Hu : 0 < u) by lia.
  eexists. split; [reflexivity|].
  destruct (Z.leb_spec (2 * num) (- u)) as [A|A].
  { assert (r < 0).
    { destruct (Z.lt_ge_cases num 0) as [L|L]; [|lia]. destruct (P2 L). assert (2 * (r * u) < 0) by lia. nia. }
    destruct (Z.ltb_spec r 0); lia. }
  assert (0 <= r).
  { destruct (Z.lt_ge_cases num 0) as [L|L]; [|tauto]. destruct (P2 L). assert (- (2 * u) < 2 * (r * u)) by lia. nia. }
  destruct (Z.ltb_spec r 0); [lia|]. rewrite Z.geb_leb.
  destruct (Z.leb_spec ((2 * n - 1) * u) (2 * num)) as [B|B].
  { assert (0 <= num) by nia. destruct (P1 ltac:(auto)) as [_ P].
    assert (n <= r) by nia. destruct (Z.leb_spec n r); lia. }
  assert (r < n).
  { destruct (Z.lt_ge_cases num 0) as [L|L]; [destruct (P2 L); lia|]. destruct (P1 L) as [_ P]. nia. }
  destruct (Z.leb_spec n r); [lia|].
  assert (Rg : 2 * (r * u) - u <= 2 * num < 2 * (r * u) + u).
  { destruct (Z.lt_ge_cases num 0) as [L|L]; [|apply P1; auto].
    destruct (P2 L). assert (r = 0) by lia. subst r. lia. }
  exists (s + r * st). split.
  { apply i_at_iff. simpl. lia. }
  intros j w Hj. apply i_at_iff in Hj. simpl in Hj. destruct Hj as [Hj ->].
  assert (D : forall k, Z.abs (x - (s + k * st)) = Z.abs (num - k * u)).
  { intro k. unfold num, u. destruct (Z.lt_trichotomy st 0) as [L|[L|L]]; [|lia|].
    - rewrite Z.sgn_neg, (Z.abs_neq st) by lia. rewrite <- Z.abs_opp. f_equal. ring.
    - rewrite Z.sgn_pos, (Z.abs_eq st) by lia. f_equal. ring. }
  rewrite !D.
  destruct (Z.lt_trichotomy j r) as [L|[->|L]].
  - assert (j * u <= (r - 1) * u) by nia. lia.
  - lia.
  - assert ((r + 1) * u <= j * u) by nia. lia.
Qed.

(** Irregular axis: reduction to the rational search. *)
Lemma znth_map {A B} (f : A -> B) l i : znth (map f l) i = option_map f (znth l i).
Proof. unfold znth. destruct (i <? 0); auto. apply nth_error_map. Qed.
Lemma zlen_map {A B} (f : A -> B) l : zlen (map f l) = zlen l.
Proof. unfold zlen. rewrite map_length. reflexivity. Qed.

Lemma fval_inject a pts i : fval (CIrr a (map inject_Z pts)) i = inject_Z (iv (IIrr a pts) i).
Proof. unfold fval; simpl. rewrite znth_map. destruct (znth pts i); reflexivity. Qed.

Lemma Qabs_inject z : Qabs (inject_Z z) = inject_Z (Z.abs z).
Proof. reflexivity. Qed.

Lemma Qabs_diff_inject x y : (Qabs (inject_Z x - inject_Z y) == inject_Z (Z.abs (x - y)))%Q.
Proof. unfold Z.sub. rewrite <- Qabs_inject, inject_Z_plus, inject_Z_opp. reflexivity. Qed.

Lemma i_irr_find a pts x bounded : i_wf (IIrr a pts) ->
  exists r, i_find_index (IIrr a pts) x bounded = Ok r /\ ((r = -1 /\ bounded = false /\ ~ i_inside (IIrr a pts) x) \/ i_nearest_last (IIrr a pts) x r) /\ (bounded = false -> r <> -1 -> i_inside (IIrr a pts) x).
Proof.
  intros [Hn M]. cbn [i_find_index].
  assert (W : wf (CIrr a (map inject_Z pts))).
  { simpl. rewrite zlen_map. split; auto. intros i j Hij Hj. rewrite !fval_inject.
    specialize (M i j Hij Hj). destruct a; apply inject_Z_lt; auto. }
  destruct (irr_find_spec a (map inject_Z pts) (inject_Z x) bounded W) as (r & -> & H).
  rewrite zlen_map, !fval_inject in H. exists r. split; auto.
  set (c := IIrr a pts) in *.
  assert (LH : forall i, 0 <= i < zlen pts -> if a then iv c 0 <= iv c i <= iv c (zlen pts - 1)
     else iv c (zlen pts - 1) <= iv c i <= iv c 0).
  { intros i Hi.
    assert (X : i = 0 \/ if a then iv c 0 < iv c i else iv c i < iv c 0).
    { destruct (Z.eq_dec i 0); auto. right. apply M; lia. }
    assert (Y : i = zlen pts - 1 \/ if a then iv c i < iv c (zlen pts - 1) else iv c (zlen pts - 1) < iv c i).
    { destruct (Z.eq_dec i (zlen pts - 1)); auto. right. apply M; lia. }
    destruct X as [->|X], Y as [Y|Y]; try rewrite <- Y in *; destruct a; lia. }
  destruct H as [(-> & B & H)|[[Hr H] HB]].
  - split; [left|lia]. split; auto. split; auto. intros (i & v & j & w & Hi & Hj & L).
    apply i_at_iff in Hi, Hj. destruct Hi as [Hi ->], Hj as [Hj ->]. simpl in Hi, Hj.
    assert (Xi := LH i Hi). assert (Xj := LH j Hj).
    destruct a; destruct H as [H|H]; apply inject_Z_lt_inv in H; lia.
  - split.
    + right. exists (iv c r). split. { apply i_at_iff. simpl. auto. }
      intros j w Hj. apply i_at_iff in Hj. destruct Hj as [Hj ->]. simpl in Hj.
      specialize (H j Hj). rewrite !fval_inject in H. fold c in H.
      rewrite !Qabs_diff_inject in H. destruct H as [H1 H2].
      split. apply inject_Z_le_inv; auto. intro L. apply inject_Z_lt_inv; auto.
    + intros B _. specialize (HB B).
      destruct a.
      * exists 0, (iv c 0), (zlen pts - 1), (iv c (zlen pts - 1)).
        split; [apply i_at_iff; simpl; lia|]. split; [apply i_at_iff; simpl; lia|].
        destruct HB as [B1 B2]. apply inject_Z_le_inv in B1, B2. auto.
      * exists (zlen pts - 1), (iv c (zlen pts - 1)), 0, (iv c 0).
        split; [apply i_at_iff; simpl; lia|]. split; [apply i_at_iff; simpl; lia|].
        destruct HB as [B1 B2]. apply inject_Z_le_inv in B1, B2. auto.
Qed.

(** Bracketing, from any correct nearest search. *)
Lemma i_find_indexes_spec c x : i_wf c -> 1 < i_size c ->
  exists r, i_find_indexes c x = Ok r /\ match r with Some (i0, i1) => i_brackets c x i0 i1 | None => ~ i_inside c x end.
Proof.
  intros W Hn. assert (M := i_mono c W).
  assert (F : exists r, i_find_index c x false = Ok r /\ ((r = -1 /\ ~ i_inside c x) \/ i_nearest_last c x r)).
  { destruct c as [a pts|a n s st s2].
    - destruct (i_irr_find a pts x false W) as (r & E & H & _). exists r. split; auto. tauto.
    - destruct (i_reg_find a n s st s2 x false W) as (r & E & H). exists r. split; auto.
      destruct W as (_ & _ & Hst). simpl in Hn.
      destruct (Z.leb_spec (2 * ((x - s) * Z.sgn st)) (- Z.abs st)) as [A|A].
      { left. split; auto. intros (i & v & j & w & Hi & Hj & L).
        apply i_at_iff in Hi, Hj. destruct Hi as [Hi ->], Hj as [Hj ->]. cbn [i_size iv] in *.
        destruct a; [rewrite Z.sgn_pos in A by auto|rewrite Z.sgn_neg in A by auto]; nia. }
      destruct (Z.leb_spec ((2 * n - 1) * Z.abs st) (2 * ((x - s) * Z.sgn st))) as [B|B]; auto.
      left. split; auto. intros (i & v & j & w & Hi & Hj & L).
      apply i_at_iff in Hi, Hj. destruct Hi as [Hi ->], Hj as [Hj ->]. cbn [i_size iv] in *.
      destruct a.
      + rewrite Z.sgn_pos, (Z.abs_eq st) in B by lia. assert (j * st <= (n - 1) * st) by nia. nia.
      + rewrite Z.sgn_neg, (Z.abs_neq st) in B by lia. assert ((n - 1) * st <= i * st) by nia. nia. }
  destruct F as (r & E & H). unfold i_find_indexes. rewrite E. cbn [obind].
  destruct H as [[-> H]|H].
  { simpl. eexists; split; [reflexivity|]. auto. }
  destruct H as (v & Hv & H). assert (Hv' := Hv). apply i_at_iff in Hv'. destruct Hv' as [Hr Ev].
  destruct (Z.eqb_spec r (-1)); [lia|]. unfold i_at in Hv. rewrite Hv. cbn [obind].
  assert (N : forall j, 0 <= j < i_size c -> Z.abs (x - v) <= Z.abs (x - iv c j)).
  { intros j Hj. apply (H j (iv c j)). apply i_at_iff. auto. }
  assert (AT : forall j, 0 <= j < i_size c -> i_at c j (iv c j)) by (intros; apply i_at_iff; auto).
  assert (TR : forall p q, 0 <= p < i_size c -> 0 <= q < i_size c ->
     (q = p + 1 \/ p = q + 1) -> (iv c p <= x <= iv c q \/ iv c q <= x <= iv c p) ->
     (p >=? 0) && (p <? i_size c) && (q >=? 0) && (q <? i_size c) = true /\ i_brackets c x p q).
  { intros p q Hp Hq Ha Hb. split. apply in_range_test; auto. exists (iv c p), (iv c q). auto. }
  assert (FL : forall p q, (q < 0 \/ i_size c <= q \/ p < 0 \/ i_size c <= p) ->
     (p >=? 0) && (p <? i_size c) && (q >=? 0) && (q <? i_size c) = false).
  { intros p q Hpq. apply not_true_is_false. intro X. apply in_range_test in X. lia. }
  destruct (Z.eqb_spec (x - v) 0) as [D|D].
  - destruct (Z.eqb_spec r (i_size c - 1)) as [L|L].
    + destruct (TR (r - 1) r ltac:(lia) ltac:(lia) ltac:(lia)) as [T B].
      { assert (X := M (r - 1) r ltac:(lia) ltac:(lia)). destruct (i_asc c); lia. }
      rewrite T. eexists; split; [reflexivity|auto].
    + destruct (TR r (r + 1) ltac:(lia) ltac:(lia) ltac:(lia)) as [T B].
      { assert (X := M r (r + 1) ltac:(lia) ltac:(lia)). destruct (i_asc c); lia. }
      rewrite T. eexists; split; [reflexivity|auto].
  - (* neighbour on the other side of x *)
    assert (NI : forall q, (q = -1 \/ q = i_size c) -> 
        (if i_asc c then (if x - v <? 0 then q = r - 1 else q = r + 1)
         else (if x - v <? 0 then q = r + 1 else q = r - 1)) -> ~ i_inside c x).
    { intros q Hq Hs (i & u & j & w & Hi & Hj & L). apply i_at_iff in Hi, Hj.
      destruct Hi as [Hi ->], Hj as [Hj ->].
      destruct (Z.ltb_spec (x - v) 0), (i_asc c) eqn:EA.
      - assert (r = 0) by lia. subst r. destruct (Z.eq_dec i 0) as [->|]; [lia|].
        assert (X := M 0 i ltac:(lia) ltac:(lia)). lia.
      - assert (r = i_size c - 1) by lia. subst r. destruct (Z.eq_dec i (i_size c - 1)) as [->|]; [lia|].
        assert (X := M i (i_size c - 1) ltac:(lia) ltac:(lia)). lia.
      - assert (r = i_size c - 1) by lia. subst r. destruct (Z.eq_dec j (i_size c - 1)) as [->|]; [lia|].
        assert (X := M j (i_size c - 1) ltac:(lia) ltac:(lia)). lia.
      - assert (r = 0) by lia. subst r. destruct (Z.eq_dec j 0) as [->|]; [lia|].
        assert (X := M 0 j ltac:(lia) ltac:(lia)). lia. }
    destruct (Z.ltb_spec (x - v) 0) as [L|L].
    + set (q := if i_asc c then r - 1 else r + 1).
      destruct (Z_lt_dec q 0) as [Q0|Q0]; [|destruct (Z_le_dec (i_size c) q) as [Q1|Q1]].
      * rewrite FL by lia. eexists; split; [reflexivity|].
        apply (NI q); unfold q in *; destruct (i_asc c); lia.
      * rewrite FL by lia. eexists; split; [reflexivity|].
        apply (NI q); unfold q in *; destruct (i_asc c); lia.
      * destruct (TR q r ltac:(lia) ltac:(lia)) as [T B].
        { unfold q; destruct (i_asc c); lia. }
        { assert (Nq := N q ltac:(lia)). unfold q in *. destruct (i_asc c).
          - assert (X := M (r - 1) r ltac:(lia) ltac:(lia)). lia.
          - assert (X := M r (r + 1) ltac:(lia) ltac:(lia)). lia. }
        rewrite T. eexists; split; [reflexivity|auto].
    + set (q := if i_asc c then r + 1 else r - 1).
      destruct (Z_lt_dec q 0) as [Q0|Q0]; [|destruct (Z_le_dec (i_size c) q) as [Q1|Q1]].
      * rewrite FL by lia. eexists; split; [reflexivity|].
        apply (NI q); unfold q in *; destruct (i_asc c); lia.
      * rewrite FL by lia. eexists; split; [reflexivity|].
        apply (NI q); unfold q in *; destruct (i_asc c); lia.
      * destruct (TR r q ltac:(lia) ltac:(lia)) as [T B].
        { unfold q; destruct (i_asc c); lia. }
        { assert (Nq := N q ltac:(lia)). unfold q in *. destruct (i_asc c).
          - assert (X := M r (r + 1) ltac:(lia) ltac:(lia)). lia.
          - assert (X := M (r - 1) r ltac:(lia) ltac:(lia)). lia. }
        rewrite T. eexists; split; [reflexivity|auto].
Qed.

(** ** Which axes are well formed *)
Definition i_ascending (l : list Z) : Prop :=
  forall i j a b, znth l i = Some a -> znth l j = Some b -> i < j -> a < b.

Lemma i_all_steps_znth inc l : i_all_steps inc l = true ->
  forall i a b, znth l i = Some a -> znth l (i + 1) = Some b -> b - a = inc.
Proof.
  induction l as [|e t IH]; intros H i a b Ha Hb.
  - apply znth_Some in Ha. unfold zlen in Ha; simpl in Ha; lia.
  - destruct t as [|e' t'].
    + apply znth_Some in Ha. apply znth_Some in Hb. unfold zlen in *; simpl in *; lia.
    + cbn [i_all_steps] in H. apply andb_true_iff in H. destruct H as [H1 H2].
      assert (Hi := znth_Some _ _ _ Ha). destruct (Z.eq_dec i 0) as [->|].
      * unfold znth in Ha, Hb. simpl in Ha, Hb. injection Ha as <-. injection Hb as <-.
        apply Z.leb_le in H1. lia.
      * rewrite znth_cons in Ha by lia. rewrite znth_cons in Hb by lia.
        apply (IH H2 (i - 1)); auto. replace (i - 1 + 1) with (i + 1 - 1) by ring. auto.
Qed.

Lemma i_even_values inc l : i_all_steps inc l = true ->
  forall k v0 v, znth l 0 = Some v0 -> znth l (Z.of_nat k) = Some v -> v = v0 + Z.of_nat k * inc.
Proof.
  intro H. assert (P := i_all_steps_znth _ _ H). induction k as [|k IH]; intros v0 v H0 Hv.
  - simpl in *. rewrite H0 in Hv. injection Hv as <-. lia.
  - rewrite Nat2Z.inj_succ in *. unfold Z.succ in *. assert (R := znth_Some _ _ _ Hv).
    destruct (znth_in_range l (Z.of_nat k) ltac:(lia)) as [u Hu].
    specialize (IH v0 u H0 Hu). specialize (P _ _ _ Hu Hv). lia.
Qed.

Lemma i_sorted_wf a l : 0 < zlen l -> i_adjacent_equal l = false -> i_sorted a l = true -> i_wf (IIrr a l).
Proof.
  intros Hn H1 H2. split; auto.
  assert (St : forall i u v, znth l i = Some u -> znth l (i + 1) = Some v -> if a then u < v else v < u).
  { clear Hn. induction l as [|e t IH]; intros i u v Hu Hv.
    - apply znth_Some in Hu. unfold zlen in Hu; simpl in Hu; lia.
    - destruct t as [|e' t'].
      + apply znth_Some in Hu. apply znth_Some in Hv. unfold zlen in *; simpl in *; lia.
      + change (i_adjacent_equal (e :: e' :: t')) with ((e =? e') || i_adjacent_equal (e' :: t')) in H1.
        change (i_sorted a (e :: e' :: t')) with (negb (if a then e' <? e else e <? e') && i_sorted a (e' :: t')) in H2.
        apply orb_false_iff in H1. destruct H1 as [H1 H1'].
        apply andb_true_iff in H2. destruct H2 as [H2 H2'].
        assert (Hi := znth_Some _ _ _ Hu). destruct (Z.eq_dec i 0) as [->|].
        * unfold znth in Hu, Hv. simpl in Hu, Hv. injection Hu as <-. injection Hv as <-.
          apply Z.eqb_neq in H1. apply negb_true_iff in H2. destruct a; apply Z.ltb_ge in H2; lia.
        * rewrite znth_cons in Hu by lia. rewrite znth_cons in Hv by lia.
          apply (IH H1' H2' (i - 1)); auto. replace (i - 1 + 1) with (i + 1 - 1) by ring. auto. }
  intros i j Hij Hj.
  assert (G : forall k : nat, i + 1 + Z.of_nat k < zlen l ->
     if a then iv (IIrr a l) i < iv (IIrr a l) (i + 1 + Z.of_nat k) else iv (IIrr a l) (i + 1 + Z.of_nat k) < iv (IIrr a l) i).
  { assert (Stp : forall i, 0 <= i -> i + 1 < zlen l -> if a then iv (IIrr a l) i < iv (IIrr a l) (i + 1) else iv (IIrr a l) (i + 1) < iv (IIrr a l) i).
    { intros p Hp Hp'. simpl. destruct (znth_in_range l p ltac:(lia)) as [u Hu].
      destruct (znth_in_range l (p + 1) ltac:(lia)) as [v Hv]. rewrite Hu, Hv. apply (St p); auto. }
    induction k as [|k IH]; intro Hk.
    - replace (i + 1 + Z.of_nat 0) with (i + 1) by lia. apply Stp; lia.
    - specialize (IH ltac:(lia)). assert (X := Stp (i + 1 + Z.of_nat k) ltac:(lia) ltac:(lia)).
      replace (i + 1 + Z.of_nat (S k)) with (i + 1 + Z.of_nat k + 1) by lia. destruct a; lia. }
  specialize (G (Z.to_nat (j - i - 1))). replace (i + 1 + Z.of_nat (Z.to_nat (j - i - 1))) with j in G by lia.
  apply G; auto.
Qed.

(** Axis built from values: same values; well formed unless it is a regular axis
    with descending values. *)
Lemma int_axis_values l c : int_axis_of_values l = Ok c ->
  i_size c = zlen l /\ (forall i v, znth l i = Some v -> i_at c i v).
Proof.
  unfold int_axis_of_values. destruct (i_is_evenly_spaced l) eqn:Ev.
  - unfold i_is_evenly_spaced in Ev. destruct l as [|a [|b t]]; try discriminate.
    set (l := a :: b :: t) in *. change (hd 0 l) with a.
    destruct (Z.abs (Z.quot (last l 0 - a) (zlen l - 1)) <=? 0) eqn:E0; [discriminate|].
    assert (Hn : 2 <= zlen l) by (unfold zlen, l; simpl; lia).
    unfold i_mk_regular. destruct (Z.eqb_spec (zlen l) 0); [lia|].
    destruct (Z.eqb_spec a (last l 0)); [discriminate|]. destruct (Z.eqb_spec (zlen l) 1); [lia|].
    intro E; injection E as <-. split; auto. intros i v Hi. assert (R := znth_Some _ _ _ Hi).
    apply i_at_iff. cbn [i_size iv]. split; auto.
    assert (X := i_even_values _ _ Ev (Z.to_nat i) a v eq_refl). rewrite Z2Nat.id in X by lia. auto.
  - destruct (Z.eqb_spec (zlen l) 0); [discriminate|].
    destruct (negb _ && _); [|discriminate]. intro E; injection E as <-. split; auto.
    intros i v Hi. assert (R := znth_Some _ _ _ Hi). apply i_at_iff. cbn [i_size iv]. rewrite Hi. auto.
Qed.

Lemma int_axis_wf l c : int_axis_of_values l = Ok c ->
  i_ascending l \/ (match c with IIrr _ _ => True | _ => False end) -> i_wf c.
Proof.
  intros Hc Ha. assert (V := proj2 (int_axis_values l c Hc)). revert Hc.
  unfold int_axis_of_values. destruct (i_is_evenly_spaced l) eqn:Ev.
  - unfold i_is_evenly_spaced in Ev. destruct l as [|a [|b t]]; try discriminate.
    set (l := a :: b :: t) in *. change (hd 0 l) with a.
    destruct (Z.leb_spec (Z.abs (Z.quot (last l 0 - a) (zlen l - 1))) 0) as [|E0]; [discriminate|].
    assert (Hn : 2 <= zlen l) by (unfold zlen, l; simpl; lia).
    unfold i_mk_regular. destruct (Z.eqb_spec (zlen l) 0); [lia|].
    destruct (Z.eqb_spec a (last l 0)); [discriminate|]. destruct (Z.eqb_spec (zlen l) 1); [lia|].
    intro E. assert (Ec := f_equal (fun o => match o with Ok z => z | _ => c end) E).
    cbv beta iota in Ec. clear E V. subst c. destruct Ha as [Ha|[]].
    assert (X := i_even_values _ _ Ev 1 a b eq_refl eq_refl).
    assert (Y := Ha 0 1 a b eq_refl eq_refl ltac:(lia)).
    set (st := Z.quot (last l 0 - a) (zlen l - 1)) in *. clearbody st.
    change (Z.of_nat 1) with 1 in X. destruct (Z.ltb_spec (zlen l) 2); [lia|].
    destruct (Z.ltb_spec a (a + st)); [|lia].
    split; [lia|]. split; [|lia]. rewrite Z.shiftr_div_pow2 by lia. rewrite Z.abs_eq by lia. reflexivity.
  - destruct (Z.eqb_spec (zlen l) 0); [discriminate|]. 
    destruct (i_adjacent_equal l) eqn:E1; [discriminate|]. cbn [negb andb].
    destruct (i_sorted _ l) eqn:E2; [|discriminate]. intro E; injection E as <-.
    apply i_sorted_wf; auto. unfold zlen in *. lia.
Qed.

Lemma i_flip_wf c : i_wf c -> i_wf (i_flip c).
Proof.
  destruct c as [a pts|a n s st s2]; simpl.
  - intros [Hn M]. rewrite zlen_rev. split; auto. intros i j Hij Hj.
    rewrite !znth_rev by lia.
    specialize (M (zlen pts - 1 - j) (zlen pts - 1 - i) ltac:(lia) ltac:(lia)). destruct a; auto.
  - intros (Hn & -> & Hs). rewrite Z.abs_opp. destruct a; simpl; lia.
Qed.

Lemma i_flip_at c i v : i_at c i v -> i_at (i_flip c) (i_size c - 1 - i) v.
Proof.
  intro H. apply i_at_iff in H. destruct H as [Hi ->]. apply i_at_iff.
  destruct c as [a pts|a n s st s2]; cbn [i_flip i_size iv] in *.
  - rewrite zlen_rev. split; [lia|]. rewrite znth_rev by lia. f_equal.
    replace (zlen pts - 1 - (zlen pts - 1 - i)) with i by ring. reflexivity.
  - split; [lia|]. ring.
Qed.
