(** Search of the crossovers. *)
From Verif Require Import Base BaseProofs MathModel MathProofs CrossModel CrossSpec CrossProofs.
Open Scope Q_scope.

Lemma plane_distance_eq p q : plane_distance p q = square_distance p q.
Proof. reflexivity. Qed.

(** * Nearest point of a line *)
Lemma nearest_from_spec t p :
  forall pre best index, best = None /\ pre = [] /\ index = 0%nat \/
    ((index < length pre)%nat /\ best = Some (square_distance (nth index pre (0, 0)) p) /\ first_nearest pre p index) ->
  (pre ++ t <> [] -> first_nearest (pre ++ t) p (nearest_from t p best (length pre) index)).
Proof.
  induction t as [|h t IH]; intros pre best index H NE.
  - rewrite app_nil_r in *. cbn. destruct H as [(_ & -> & _)|(_ & _ & H)]; [congruence|exact H].
  - cbn [nearest_from]. rewrite plane_distance_eq.
    replace (pre ++ h :: t) with ((pre ++ [h]) ++ t) by (rewrite <- app_assoc; reflexivity).
    replace (S (length pre)) with (length (pre ++ [h])) by (rewrite app_length; cbn; lia).
    assert (Nh : nth (length pre) (pre ++ [h]) (0, 0) = h) by (rewrite app_nth2, Nat.sub_diag by lia; reflexivity).
    assert (Np : forall j, (j < length pre)%nat -> nth j (pre ++ [h]) (0, 0) = nth j pre (0, 0)) by (intros; apply app_nth1; lia).
    assert (Lh : length (pre ++ [h]) = S (length pre)) by (rewrite app_length; cbn; lia).
    destruct H as [(-> & -> & ->)|(L & -> & F)].
    + apply IH; [|destruct t; discriminate]. right. split; [cbn; lia|]. split; [reflexivity|].
      split; [cbn; lia|]. intros j Hj. cbn in Hj. assert (j = 0)%nat by lia. subst. cbn. split; [lra|lia].
    + destruct F as [_ F]. destruct (Qltb_cases (square_distance h p) (square_distance (nth index pre (0, 0)) p)) as [[-> D]|[-> D]].
      * apply IH; [|destruct pre; discriminate]. right. split; [lia|]. rewrite Nh. split; [reflexivity|].
        split; [lia|]. intros j Hj. rewrite Nh. destruct (Nat.eq_dec j (length pre)) as [->|N].
        { rewrite Nh. split; [lra|lia]. }
        rewrite Np by lia. destruct (F j ltac:(lia)) as [F1 F2]. split; [lra|]. intros. lra.
      * apply IH; [|destruct pre; discriminate]. right. split; [lia|]. rewrite (Np index) by lia. split; [reflexivity|].
        split; [lia|]. intros j Hj. rewrite (Np index) by lia. destruct (Nat.eq_dec j (length pre)) as [->|N].
        { rewrite Nh. split; [lra|lia]. }
        rewrite Np by lia. apply F. lia.
Qed.
Lemma nearest_point_spec l p : l <> [] -> first_nearest l p (nearest_point l p).
Proof. intro H. apply (nearest_from_spec l p [] None 0%nat); [left; auto|exact H]. Qed.
Lemma first_nearest_unique l p i j : first_nearest l p i -> first_nearest l p j -> i = j.
Proof.
  intros [L F] [L' F']. destruct (Nat.lt_trichotomy i j) as [H|[H|H]]; [exfalso|exact H|exfalso].
  - pose proof (proj2 (F' i L) H). pose proof (proj1 (F j L')). lra.
  - pose proof (proj2 (F j L') H). pose proof (proj1 (F' i L)). lra.
Qed.
Lemma square_distance_comp a p q : same_place p q -> square_distance a p == square_distance a q.
Proof. intros [H J]. unfold square_distance. rewrite H, J. reflexivity. Qed.
Lemma first_nearest_comp l p q i : same_place p q -> first_nearest l p i -> first_nearest l q i.
Proof.
  intros S [L F]. split; [exact L|]. intros j Hj. destruct (F j Hj) as [F1 F2].
  pose proof (square_distance_comp (nth i l (0, 0)) p q S). pose proof (square_distance_comp (nth j l (0, 0)) p q S).
  split; [lra|]. intros Hl. specialize (F2 Hl). lra.
Qed.

Lemma geographic_normalize p : geographic p (normalize_angle (fst p) (-(180)) 360, snd p).
Proof.
  destruct (normalize_angle_spec (fst p) (-(180)) 360 ltac:(lra)) as (L & U & k & E).
  split; [exists k; exact E|]. cbn [fst snd]. split; [lra|reflexivity].
Qed.

(** * The set of the points *)
Lemma same_point_iff p q : same_point p q = true <-> same_place p q.
Proof. unfold same_point, same_place. rewrite andb_true_iff, !Qeq_bool_iff. reflexivity. Qed.
Lemma same_place_refl p : same_place p p.
Proof. split; reflexivity. Qed.
Lemma same_place_sym p q : same_place p q -> same_place q p.
Proof. intros [H J]. split; symmetry; assumption. Qed.
Lemma same_place_trans p q r : same_place p q -> same_place q r -> same_place p r.
Proof. intros [H J] [H' J']. split; etransitivity; eassumption. Qed.

Lemma point_set_fold l s : s <> [] ->
  let r := fold_left (fun s p => if existsb (same_point p) s then s else s ++ [p]) l s in
  (length s <= length r)%nat /\
  (length r = length s <-> forall p, In p l -> exists q, In q s /\ same_place p q).
Proof.
  cbv zeta. revert s. induction l as [|h t IH]; intros s NE; cbn [fold_left].
  - split; [lia|]. split; [intros _ p []|reflexivity].
  - destruct (existsb (same_point h) s) eqn:E.
    + destruct (IH s NE) as [G1 G2]. split; [exact G1|]. rewrite G2. apply existsb_exists in E.
      destruct E as (q & Hq & Sq). apply same_point_iff in Sq. split; intros H p; [intros [<-|Hp]|intro Hp].
      * exists q; auto.
      * apply H; exact Hp.
      * apply H; right; exact Hp.
    + destruct (IH (s ++ [h])) as [G1 G2]; [destruct s; discriminate|]. rewrite app_length in G1, G2. cbn in G1, G2.
      split; [lia|]. split; [lia|]. intro H. exfalso. destruct (H h (or_introl eq_refl)) as (q & Hq & Sq).
      apply same_point_iff in Sq. assert (existsb (same_point h) s = true) by (apply existsb_exists; exists q; auto). congruence.
Qed.
Lemma point_set_one p t : length (point_set (p :: t)) = 1%nat <-> forall q, In q t -> same_place q p.
Proof.
  unfold point_set. cbn [fold_left existsb app].
  destruct (point_set_fold t [p] ltac:(discriminate)) as [_ G]. cbn [length] in G. rewrite G.
  split; intros H q Hq.
  - destruct (H q Hq) as (r & [<-|[]] & S). exact S.
  - exists p. split; [left; reflexivity|apply H; exact Hq].
Qed.

Lemma search_spec l :
  match search l with
  | Ok None => l = []
  | Ok (Some p) => (exists t, l = p :: t) /\ forall q, In q l -> same_place q p
  | Throw _ => exists p q, In p l /\ In q l /\ ~ same_place p q
  | UB _ => False
  end.
Proof.
  destruct l as [|p t]; cbn [search]; [reflexivity|].
  destruct (length (p :: t) =? 1)%nat eqn:E; cbn [negb andb].
  - split; [exists t; reflexivity|]. apply Nat.eqb_eq in E. destruct t; [|discriminate].
    intros q [<-|[]]. apply same_place_refl.
  - destruct (length (point_set (p :: t)) =? 1)%nat eqn:F; cbn [negb].
    + apply Nat.eqb_eq in F. split; [exists t; reflexivity|]. pose proof (proj1 (point_set_one p t) F) as G.
      intros q [<-|Hq]; [apply same_place_refl|apply G; exact Hq].
    + apply Nat.eqb_neq in F. assert (N : ~ Forall (fun q => same_place q p) t).
      { intro H. apply F, point_set_one. apply Forall_forall. exact H. }
      assert (Ex : exists q, In q t /\ ~ same_place q p).
      { clear F E. induction t as [|h t IH]; [exfalso; apply N; constructor|].
        destruct (same_point h p) eqn:S.
        - apply same_point_iff in S. destruct IH as (q & Hq & Nq).
          + intro H. apply N. constructor; assumption.
          + exists q. split; [right; exact Hq|exact Nq].
        - exists h. split; [left; reflexivity|]. intro H. apply same_point_iff in H. congruence. }
      destruct Ex as (q & Hq & Nq). exists q, p. split; [right; exact Hq|]. split; [left; reflexivity|exact Nq].
Qed.

Section Plane.
  Variable distance : pt -> pt -> Q.
  Variables (lon1 lat1 lon2 lat2 : list Q) (n1 n2 : line) (predicate : Q).
  Hypothesis ne1 : n1 <> [].
  Hypothesis ne2 : n2 <> [].

  Lemma plane_answer_spec p :
    match plane_answer distance lon1 lat1 lon2 lat2 n1 n2 predicate p with
    | Some a => reported distance predicate lon1 lat1 lon2 lat2 n1 n2 p a
    | None => too_far distance predicate lon1 lat1 lon2 lat2 n1 n2 p
    end.
  Proof using ne1 ne2.
    unfold plane_answer.
    pose proof (nearest_point_spec n1 p ne1) as F1. pose proof (nearest_point_spec n2 p ne2) as F2.
    pose proof (geographic_normalize p) as G.
    set (g := (normalize_angle (fst p) (-(180)) 360, snd p)) in *.
    set (i := nearest_point n1 p) in *. set (j := nearest_point n2 p) in *.
    destruct (Qltb_cases predicate (distance g (nth i lon1 0, nth i lat1 0))) as [[-> D]|[-> D]].
    { exists g, i, j. split; [exact G|]. split; [exact F1|]. split; [exact F2|]. left. exact D. }
    destruct (Qltb_cases predicate (distance g (nth j lon2 0, nth j lat2 0))) as [[-> D']|[-> D']].
    { exists g, i, j. split; [exact G|]. split; [exact F1|]. split; [exact F2|]. right. exact D'. }
    split; [exact G|]. split; [exact F1|]. split; [exact F2|]. split; [exact D|exact D'].
  Qed.

  Lemma plane_answers_listed ps :
    listed distance predicate lon1 lat1 lon2 lat2 n1 n2 ps (plane_answers distance lon1 lat1 lon2 lat2 n1 n2 predicate ps).
  Proof using ne1 ne2.
    induction ps as [|p t IH]; cbn [plane_answers]; [constructor|].
    pose proof (plane_answer_spec p) as H. destruct (plane_answer _ _ _ _ _ _ _ _ p).
    - constructor; assumption.
    - apply listed_skip; assumption.
  Qed.

  Hypothesis proper : forall p p' q, same_place p p' -> distance p q == distance p' q.
  (** Two equal points get the same answer. *)
  Lemma reported_equal p q a : same_place p q ->
    reported distance predicate lon1 lat1 lon2 lat2 n1 n2 p a ->
    forall b, reported distance predicate lon1 lat1 lon2 lat2 n1 n2 q b ->
    same_place (fst a) (fst b) /\ snd a = snd b.
  Proof using Type.
    clear. destruct a as [g [i j]]. intros S (G & F1 & F2 & _) [h [i' j']] (G' & F1' & F2' & _). cbn [fst snd].
    split.
    - destruct G as (M & B & E), G' as (M' & B' & E'). destruct S as [S1 S2]. split; [|rewrite E, E'; exact S2].
      apply same_lon_close; [|lra|lra]. eapply same_lon_trans; [exact M|]. rewrite S1. apply same_lon_sym. exact M'.
    - f_equal; [exact (first_nearest_unique _ _ _ _ (first_nearest_comp _ _ _ _ S F1) F1')|exact (first_nearest_unique _ _ _ _ (first_nearest_comp _ _ _ _ S F2) F2')].
  Qed.
  Lemma reported_not_far p q a : same_place p q ->
    reported distance predicate lon1 lat1 lon2 lat2 n1 n2 p a ->
    too_far distance predicate lon1 lat1 lon2 lat2 n1 n2 q -> False.
  Proof using proper.
    destruct a as [g [i j]]. intros S (G & F1 & F2 & D1 & D2) (h & i' & j' & G' & F1' & F2' & D).
    assert (i = i') by exact (first_nearest_unique _ _ _ _ (first_nearest_comp _ _ _ _ S F1) F1').
    assert (j = j') by exact (first_nearest_unique _ _ _ _ (first_nearest_comp _ _ _ _ S F2) F2').
    subst i' j'.
    assert (SG : same_place g h).
    { destruct G as (M & B & E), G' as (M' & B' & E'). destruct S as [S1 S2]. split; [|rewrite E, E'; exact S2].
      apply same_lon_close; [|lra|lra]. eapply same_lon_trans; [exact M|]. rewrite S1. apply same_lon_sym. exact M'. }
    pose proof (proper g h (point_of lon1 lat1 i) SG). pose proof (proper g h (point_of lon2 lat2 j) SG).
    destruct D; lra.
  Qed.
End Plane.

(** * Tracks on the cylinder and lines of the plane *)
Lemma along_shift u v n k i s : length u = length v \/ True -> (S i < n)%nat ->
  (forall i, (i < n)%nat -> at_ v i == at_ u i + inject_Z k * 360) -> along v i s == along u i s + inject_Z k * 360.
Proof. intros _ L H. unfold along. rewrite (H i), (H (S i)) by lia. ring. Qed.
Lemma along_between u i s : (S i < length u)%nat -> 0 <= s <= 1 ->
  exists a b, In a u /\ In b u /\ a <= along u i s /\ along u i s <= b.
Proof.
  intros L Hs. unfold along. destruct (Qlt_le_dec (at_ u i) (at_ u (S i))).
  - exists (at_ u i), (at_ u (S i)). split; [apply at_in; lia|]. split; [apply at_in; lia|]. split; nra.
  - exists (at_ u (S i)), (at_ u i). split; [apply at_in; lia|]. split; [apply at_in; lia|]. split; nra.
Qed.
Lemma meets_iff u1 u2 n1 n2 k1 k2 i s j t :
  within_turn (u1 ++ u2) ->
  (forall i, (i < length u1)%nat -> at_ n1 i == at_ u1 i + inject_Z k1 * 360) ->
  (forall i, (i < length u2)%nat -> at_ n2 i == at_ u2 i + inject_Z k2 * 360) ->
  (k1 = k2 \/ (k2 = (k1 + 1)%Z /\ forall a b, In a u1 -> In b u2 -> b < a) \/
                (k1 = (k2 + 1)%Z /\ forall a b, In a u1 -> In b u2 -> a < b)) ->
  on_segment (length u1) i s -> on_segment (length u2) j t ->
  (same_lon (along u1 i s) (along u2 j t) <-> along n1 i s == along n2 j t).
Proof.
  intros W H1 H2 C [L1 S1] [L2 S2].
  pose proof (along_shift u1 n1 (length u1) k1 i s (or_intror I) L1 H1) as A1.
  pose proof (along_shift u2 n2 (length u2) k2 j t (or_intror I) L2 H2) as A2.
  destruct (along_between u1 i s L1 S1) as (a & b & Ia & Ib & La & Lb).
  destruct (along_between u2 j t L2 S2) as (c & d & Ic & Id & Lc & Ld).
  split; intro H.
  - assert (E : along u1 i s == along u2 j t).
    { apply same_lon_close; [exact H| |].
      - pose proof (W d a ltac:(apply in_or_app; auto) ltac:(apply in_or_app; auto)). lra.
      - pose proof (W b c ltac:(apply in_or_app; auto) ltac:(apply in_or_app; auto)). lra. }
    destruct C as [<-|[[_ C]|[_ C]]].
    + rewrite A1, A2, E. reflexivity.
    + pose proof (C a d Ia Id). lra.
    + pose proof (C b c Ib Ic). lra.
  - eapply same_lon_trans; [apply same_lon_sym, (same_lon_turn _ k1)|]. rewrite <- A1, H, A2. apply same_lon_turn.
Qed.

(** Two half-orbits narrower than 180 degrees can be unrolled side by side. *)
Lemma at_turn u k i : (i < length u)%nat -> at_ (map (fun x => x + inject_Z k * 360) u) i = at_ u i + inject_Z k * 360.
Proof. intro L. apply (at_map (fun x => x + inject_Z k * 360)). exact L. Qed.
Lemma unrolled_turn lon u k : unrolled lon u -> unrolled lon (map (fun x => x + inject_Z k * 360) u).
Proof.
  intros (L & M & D). split; [rewrite map_length; exact L|]. rewrite map_length. split.
  - intros i Hi. rewrite at_turn by exact Hi. eapply same_lon_trans; [apply M; exact Hi|]. apply same_lon_sym, same_lon_turn.
  - destruct D as [D|D]; [left|right]; intros i Hi; rewrite map_length in Hi; rewrite !at_turn by lia; pose proof (D i Hi); lra.
Qed.
Lemma list_min (u : list Q) : u <> [] -> exists w, In w u /\ forall x, In x u -> w <= x.
Proof.
  induction u as [|a u IH]; [congruence|]. intros _. destruct u as [|b u].
  - exists a. split; [left; reflexivity|]. intros x [<-|[]]. lra.
  - destruct IH as (w & Iw & Hw); [discriminate|]. destruct (Qlt_le_dec a w).
    + exists a. split; [left; reflexivity|]. intros x [<-|Hx]; [lra|]. pose proof (Hw x Hx). lra.
    + exists w. split; [right; exact Iw|]. intros x [<-|Hx]; [lra|]. apply Hw; exact Hx.
Qed.
Lemma side_by_side u1 u2 :
  (forall x y, In x u1 -> In y u1 -> x - y < 180) -> (forall x y, In x u2 -> In y u2 -> x - y < 180) ->
  exists k, within_turn (u1 ++ map (fun x => x + inject_Z k * 360) u2).
Proof.
  intros S1 S2. destruct u1 as [|a1 u1'].
  { exists 0%Z. cbn [app]. intros x y Hx Hy. apply in_map_iff in Hx, Hy. destruct Hx as (x' & <- & Hx), Hy as (y' & <- & Hy).
    pose proof (S2 x' y' Hx Hy). lra. }
  destruct u2 as [|a2 u2'].
  { exists 0%Z. cbn [map]. rewrite app_nil_r. intros x y Hx Hy. pose proof (S1 x y Hx Hy). lra. }
  set (u1 := a1 :: u1') in *. set (u2 := a2 :: u2') in *.
  destruct (list_min u1 ltac:(discriminate)) as (w1 & I1 & M1). destruct (list_min u2 ltac:(discriminate)) as (w2 & I2 & M2).
  destruct (normalize_angle_spec (w2 - w1) (-(180)) 360 ltac:(lra)) as (L & U & k & E).
  exists k. set (v := w2 - w1 + inject_Z k * 360) in *. rewrite E in L, U.
  assert (Sp : forall z, In z (u1 ++ map (fun x => x + inject_Z k * 360) u2) ->
    (w1 <= z < w1 + 180) \/ (w1 + v <= z < w1 + v + 180)).
  { intros z Hz. apply in_app_or in Hz. destruct Hz as [Hz|Hz].
    - left. pose proof (M1 z Hz). pose proof (S1 z w1 Hz I1). lra.
    - right. apply in_map_iff in Hz. destruct Hz as (z' & <- & Hz). pose proof (M2 z' Hz). pose proof (S2 z' w2 Hz I2). unfold v. lra. }
  intros x y Hx Hy. destruct (Sp x Hx), (Sp y Hy); lra.
Qed.
