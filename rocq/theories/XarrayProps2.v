(** Theorems about the Python grids (C104): the interpolated values depend on the coordinates and on
    the values only, not on the direction of the axes. *)
From Coq Require Import Permutation.
From Verif Require Import Base BaseProofs MathModel AxisModel AxisSpec AxisProofs AxisProofs2 AxisProofs5
  IntAxisModel IntAxisProofs GridModel GridSpec GridProofs GridProofs2 GridProofs3 GridProofs4 GridProps GridProps4 XarrayModel XarraySpec XarrayProofs XarrayProps.
Open Scope Z_scope.

(** ** One axis *)
Definition same_values (z z' : zaxis) : Prop :=
  (forall i v, z_at_index z i v -> exists j w, z_at_index z' j w /\ (w == v)%Q) /\
  (forall i v, z_at_index z' i v -> exists j w, z_at_index z j w /\ (w == v)%Q).
Lemma same_values_sym : forall z z', same_values z z' -> same_values z' z.
Proof. intros z z' [A B]. split; assumption. Qed.
(** No coordinate lies strictly between two consecutive ones. *)
Lemma gap : forall z i0 i1 v0 v1 k v, z_ok z -> z_at_index z i0 v0 -> z_at_index z i1 v1 -> (i1 = i0 + 1 \/ i0 = i1 + 1) -> z_at_index z k v ->
  (v0 < v1)%Q -> (v <= v0 \/ v1 <= v)%Q.
Proof.
  intros z i0 i1 v0 v1 k v K H0 H1 Ad Hk L. apply z_at_iff in H0 as [R0 ->]; [|exact K]. apply z_at_iff in H1 as [R1 ->]; [|exact K]. apply z_at_iff in Hk as [Rk ->]; [|exact K].
  pose proof (z_mono z K) as M. destruct (Z.eq_dec k i0) as [->|N0]; [left; lra|]. destruct (Z.eq_dec k i1) as [->|N1]; [right; lra|].
  destruct (Z.lt_ge_cases k (Z.min i0 i1)) as [C|C].
  - pose proof (M k i0 ltac:(lia) ltac:(lia)) as M0. pose proof (M k i1 ltac:(lia) ltac:(lia)) as M1. destruct (z_is_ascending z); [left|right]; lra.
  - pose proof (M i0 k ltac:(lia) ltac:(lia)) as M0. pose proof (M i1 k ltac:(lia) ltac:(lia)) as M1. destruct (z_is_ascending z); [right|left]; lra.
Qed.
Lemma lerp_swap : forall x0 x1 v0 v1 x, ~ (x0 == x1)%Q -> (lerp x0 x1 v0 v1 x == lerp x1 x0 v1 v0 x)%Q.
Proof. intros. unfold lerp. field. split; lra. Qed.
Lemma lerp_cong : forall x0 x1 v0 v1 x0' x1' v0' v1' x, ~ (x0 == x1)%Q -> (x0 == x0')%Q -> (x1 == x1')%Q -> (v0 == v0')%Q -> (v1 == v1')%Q ->
  (lerp x0 x1 v0 v1 x == lerp x0' x1' v0' v1' x)%Q.
Proof. intros x0 x1 v0 v1 x0' x1' v0' v1' x N E0 E1 F0 F1. unfold lerp. rewrite E0, E1, F0, F1. reflexivity. Qed.
Lemma lerp_left : forall x0 x1 v0 v1 x, ~ (x0 == x1)%Q -> (x == x0)%Q -> (lerp x0 x1 v0 v1 x == v0)%Q.
Proof. intros x0 x1 v0 v1 x N E. unfold lerp. rewrite E. field. lra. Qed.
Lemma lerp_right : forall x0 x1 v0 v1 x, ~ (x0 == x1)%Q -> (x == x1)%Q -> (lerp x0 x1 v0 v1 x == v1)%Q.
Proof. intros x0 x1 v0 v1 x N E. unfold lerp. rewrite E. field. lra. Qed.
Lemma at_neq : forall z i0 i1 v0 v1, z_ok z -> z_at_index z i0 v0 -> z_at_index z i1 v1 -> i0 <> i1 -> ~ (v0 == v1)%Q.
Proof.
  intros z i0 i1 v0 v1 K H0 H1 N E. apply z_at_iff in H0 as [R0 ->]; [|exact K]. apply z_at_iff in H1 as [R1 ->]; [|exact K]. apply N. apply (z_inj z K); auto.
Qed.
(** The linear interpolation does not depend on the cell found. *)
Lemma lerp_ordered : forall z z' (q q' : Z -> Q) x i0 i1 v0 v1 j0 j1 w0 w1, z_ok z -> z_ok z' -> same_values z z' ->
  (forall i j v w, z_at_index z i v -> z_at_index z' j w -> (v == w)%Q -> (q i == q' j)%Q) ->
  z_cell z x i0 i1 v0 v1 -> z_cell z' x j0 j1 w0 w1 -> (v0 < v1)%Q -> (w0 < w1)%Q ->
  (lerp v0 v1 (q i0) (q i1) x == lerp w0 w1 (q' j0) (q' j1) x)%Q.
Proof.
  intros z z' q q' x i0 i1 v0 v1 j0 j1 w0 w1 K K' [S S'] Q (H0 & H1 & Ad & B) (G0 & G1 & Ad' & B') L L'.
  assert (Bx : (v0 <= x <= v1)%Q) by (destruct B; lra). assert (Bx' : (w0 <= x <= w1)%Q) by (destruct B'; lra). clear B B'.
  destruct (S i0 v0 H0) as (a & va & A & EA). destruct (S i1 v1 H1) as (b & vb & Bq & EB).
  destruct (S' j0 w0 G0) as (c & vc & C & EC). destruct (S' j1 w1 G1) as (e & ve & D & ED).
  pose proof (gap z' j0 j1 w0 w1 a va K' G0 G1 Ad' A L') as G1a. pose proof (gap z' j0 j1 w0 w1 b vb K' G0 G1 Ad' Bq L') as G1b.
  pose proof (gap z i0 i1 v0 v1 c vc K H0 H1 Ad C L) as G2a. pose proof (gap z i0 i1 v0 v1 e ve K H0 H1 Ad D L) as G2b.
  destruct (Q_dec v0 w0) as [[C1|C1]|C1].
  - (* v0 < w0: they meet at v1 = w0 *)
    assert (Ev : (v1 == w0)%Q) by (destruct G2a; lra). rewrite lerp_right by lra. rewrite lerp_left by lra. apply (Q i1 j0 v1 w0); assumption.
  - assert (Ev : (v0 == w1)%Q) by (destruct G1a; lra). rewrite lerp_left by lra. rewrite lerp_right by lra. apply (Q i0 j1 v0 w1); assumption.
  - assert (Ev : (v1 == w1)%Q) by (destruct G1b, G2b; lra).
    apply lerp_cong; try lra; [apply (Q i0 j0 v0 w0)|apply (Q i1 j1 v1 w1)]; assumption.
Qed.
Lemma z_cell_swap : forall z x i0 i1 v0 v1, z_cell z x i0 i1 v0 v1 -> z_cell z x i1 i0 v1 v0.
Proof. intros z x i0 i1 v0 v1 (H0 & H1 & Ad & B). split; [exact H1|]. split; [exact H0|]. split; [tauto|]. destruct B; [right|left]; assumption. Qed.
Lemma lerp_cells : forall z z' (q q' : Z -> Q) x i0 i1 v0 v1 j0 j1 w0 w1, z_ok z -> z_ok z' -> same_values z z' ->
  (forall i j v w, z_at_index z i v -> z_at_index z' j w -> (v == w)%Q -> (q i == q' j)%Q) ->
  z_cell z x i0 i1 v0 v1 -> z_cell z' x j0 j1 w0 w1 ->
  (lerp v0 v1 (q i0) (q i1) x == lerp w0 w1 (q' j0) (q' j1) x)%Q.
Proof.
  intros z z' q q' x i0 i1 v0 v1 j0 j1 w0 w1 K K' S Q C C'.
  pose proof C as (H0 & H1 & Ad & _). pose proof C' as (G0 & G1 & Ad' & _).
  assert (N : ~ (v0 == v1)%Q) by (apply (at_neq z i0 i1); auto; lia). assert (N' : ~ (w0 == w1)%Q) by (apply (at_neq z' j0 j1); auto; lia).
  destruct (Q_dec v0 v1) as [[L|L]|L]; [| |contradiction]; (destruct (Q_dec w0 w1) as [[L'|L']|L']; [| |contradiction]).
  - apply (lerp_ordered z z'); assumption.
  - rewrite (lerp_swap w0 w1) by exact N'. apply (lerp_ordered z z'); auto. apply z_cell_swap. exact C'.
  - rewrite (lerp_swap v0 v1) by exact N. apply (lerp_ordered z z'); auto. apply z_cell_swap. exact C.
  - rewrite (lerp_swap v0 v1), (lerp_swap w0 w1) by assumption. apply (lerp_ordered z z'); auto; apply z_cell_swap; assumption.
Qed.

(** ** Axes of the same field *)
Lemma ok_some : forall z, z_ok z -> exists v, z_at_index z 0 v.
Proof.
  intros z K. exists (z_val z 0). apply z_at_iff; [exact K|]. split; [|reflexivity]. destruct z as [a|c]; cbn [z_ok z_size] in *.
  - destruct K as [W _]. destruct (a_cont a); cbn [wf c_size] in *; [contradiction|lia|lia].
  - destruct K. lia.
Qed.
Lemma at_located : forall z i v, z_at_index z i v -> exists w, z_at_index z i w /\ (w == v)%Q.
Proof. intros z i v H. exists v. split; [exact H|reflexivity]. Qed.
Lemma same_field_values2 : forall z1 z2 a z1' z2' a', z_ok z1 -> z_ok z2 -> z_ok z1' -> z_ok z2' -> same_field [z1; z2] a [z1'; z2'] a' -> same_values z1 z1' /\ same_values z2 z2'.
Proof.
  intros z1 z2 a z1' z2' a' K1 K2 K1' K2' [S _].
  destruct (ok_some z1 K1) as [o1 O1]. destruct (ok_some z2 K2) as [o2 O2]. destruct (ok_some z1' K1') as [p1 P1]. destruct (ok_some z2' K2') as [p2 P2].
  split; split; intros i v H.
  - destruct (proj1 (S [v; o2])) as [j L]; [exists [i; 0]; cbn [located]; auto using at_located|]. destruct j as [|j [|? [|]]]; cbn [located] in L; try tauto. destruct L as [(w & W & E) _]. eauto.
  - destruct (proj2 (S [v; p2])) as [j L]; [exists [i; 0]; cbn [located]; auto using at_located|]. destruct j as [|j [|? [|]]]; cbn [located] in L; try tauto. destruct L as [(w & W & E) _]. eauto.
  - destruct (proj1 (S [o1; v])) as [j L]; [exists [0; i]; cbn [located]; auto using at_located|]. destruct j as [|? [|j [|]]]; cbn [located] in L; try tauto. destruct L as [_ [(w & W & E) _]]. eauto.
  - destruct (proj2 (S [p1; v])) as [j L]; [exists [0; i]; cbn [located]; auto using at_located|]. destruct j as [|? [|j [|]]]; cbn [located] in L; try tauto. destruct L as [_ [(w & W & E) _]]. eauto.
Qed.
Lemma same_values_inside : forall z z' x, same_values z z' -> z_inside z x -> z_inside z' x.
Proof.
  intros z z' x [S _] (k & v & l & w & H & H' & A & B). destruct (S k v H) as (k' & v' & Hk & Ek). destruct (S l w H') as (l' & w' & Hl & El).
  exists k', v', l', w'. repeat split; auto; lra.
Qed.
Definition qv (a : ndarray) (i : list Z) : Q := match nd_cell a i with Some q => q | None => 0%Q end.

Lemma cell_z : forall a x i0 i1 v0 v1, cell a x i0 i1 v0 v1 -> z_cell (ZReal a) x i0 i1 v0 v1.
Proof. intros. exact H. Qed.

(** In two dimensions, for arrays without missing value. *)
Theorem C104_bilinear : forall d c d' c' ax ay a g ax' ay' a' g' be x y,
  new_grid2 ax ay a = Ok g -> new_grid2 ax' ay' a' = Ok g' ->
  reachable ax -> reachable ay -> reachable ax' -> reachable ay' -> 1 < len ax -> 1 < len ay -> 1 < len ax' -> 1 < len ay' ->
  is_angle ax = false -> is_angle ay = false -> is_angle ax' = false -> is_angle ay' = false ->
  same_field [ZReal ax; ZReal ay] a [ZReal ax'; ZReal ay'] a' -> full ax ay a ->
  same_answer (bivariate d c g Bilinear be x y) (bivariate d' c' g' Bilinear be x y).
Proof.
  intros d c d' c' ax ay a g ax' ay' a' g' be x y G G' RX RY RX' RY' LX LY LX' LY' AX AY AX' AY' SF F.
  pose proof (reachable_ok _ RX) as OX. pose proof (reachable_ok _ RY) as OY. pose proof (reachable_ok _ RX') as OX'. pose proof (reachable_ok _ RY') as OY'.
  destruct (same_field_values2 (ZReal ax) (ZReal ay) a (ZReal ax') (ZReal ay') a' OX OY OX' OY' SF) as [SX SY].
  assert (In_dec : forall b z, axis_ok b -> inside b z \/ ~ inside b z).
  { intros b z K. destruct (Qlt_le_dec z (lo (a_cont b))); [right; rewrite inside_iff by exact K; lra|]. destruct (Qlt_le_dec (hi (a_cont b)) z); [right|left]; rewrite inside_iff by exact K; lra. }
  assert (F' : full ax' ay' a').
  { intros i j Hi Hj. assert (A1 : z_at_index (ZReal ax') i (z_val (ZReal ax') i)) by (apply z_at_iff; [exact OX'|split; [exact Hi|reflexivity]]).
    assert (A2 : z_at_index (ZReal ay') j (z_val (ZReal ay') j)) by (apply z_at_iff; [exact OY'|split; [exact Hj|reflexivity]]).
    destruct (proj2 SX i _ A1) as (i' & v & Hi' & Ei). destruct (proj2 SY j _ A2) as (j' & w & Hj' & Ej).
    assert (E : nd_cell a [i'; j'] = nd_cell a' [i; j]).
    { apply (proj2 SF [z_val (ZReal ax') i; z_val (ZReal ay') j]); cbn [located]; repeat split; eauto using at_located. }
    rewrite <- E. apply F; [apply z_at_iff in Hi' as [Hi' _]; [exact Hi'|exact OX]|apply z_at_iff in Hj' as [Hj' _]; [exact Hj'|exact OY]]. }
  destruct (In_dec ax x OX) as [IX|IX]; [destruct (In_dec ay y OY) as [IY|IY]|].
  - assert (IX' : inside ax' x) by exact (same_values_inside (ZReal ax) (ZReal ax') x SX IX).
    assert (IY' : inside ay' y) by exact (same_values_inside (ZReal ay) (ZReal ay') y SY IY).
    destruct (full_bilinear d c ax ay a g be x y G RX RY LX LY AX AY IX IY F) as (i0 & i1 & j0 & j1 & q00 & q01 & q10 & q11 & v & CX & CY & NX & NY & E00 & E01 & E10 & E11 & V & E). cbv zeta in *.
    destruct (full_bilinear d' c' ax' ay' a' g' be x y G' RX' RY' LX' LY' AX' AY' IX' IY' F') as (k0 & k1 & l0 & l1 & p00 & p01 & p10 & p11 & v' & CX' & CY' & NX' & NY' & P00 & P01 & P10 & P11 & V' & E'). cbv zeta in *.
    rewrite V, V'. cbn [same_answer]. rewrite E, E'. unfold bilerp.
    pose proof (lerp_cells (ZReal ay) (ZReal ay') (fun j => lerp (fval (a_cont ax) i0) (fval (a_cont ax) i1) (qv a [i0; j]) (qv a [i1; j]) x)
                  (fun l => lerp (fval (a_cont ax') k0) (fval (a_cont ax') k1) (qv a' [k0; l]) (qv a' [k1; l]) x) y j0 j1 (fval (a_cont ay) j0) (fval (a_cont ay) j1) l0 l1 (fval (a_cont ay') l0) (fval (a_cont ay') l1) OY OY' SY) as LC.
    cbv beta in LC. unfold qv in LC. rewrite E00, E01, E10, E11, P00, P01, P10, P11 in LC. apply LC; [|exact CY|exact CY']. clear LC.
    intros j l w w' Hj Hl Ew. fold (qv a [i0; j]) (qv a [i1; j]) (qv a' [k0; l]) (qv a' [k1; l]).
    apply (lerp_cells (ZReal ax) (ZReal ax') (fun i => qv a [i; j]) (fun k => qv a' [k; l]) x i0 i1 _ _ k0 k1 _ _ OX OX' SX); [|exact CX|exact CX'].
    intros i k u u' Hi Hk Eu. unfold qv. rewrite (proj2 SF [u; w] [i; j] [k; l]); [reflexivity| |]; cbn [located].
    + split; [exists u; split; [exact Hi|reflexivity]|]. split; [exists w; split; [exact Hj|reflexivity]|exact I].
    + split; [exists u'; split; [exact Hk|lra]|]. split; [exists w'; split; [exact Hl|lra]|exact I].
  - rewrite (C52_outside d c ax ay a g Bilinear be x y G RX RY LX LY AX AY (or_intror IY)).
    rewrite (C52_outside d' c' ax' ay' a' g' Bilinear be x y G' RX' RY' LX' LY' AX' AY').
    + destruct be; cbn [same_answer]; auto.
    + right. intro H. apply IY. exact (same_values_inside (ZReal ay') (ZReal ay) y (same_values_sym _ _ SY) H).
  - rewrite (C52_outside d c ax ay a g Bilinear be x y G RX RY LX LY AX AY (or_introl IX)).
    rewrite (C52_outside d' c' ax' ay' a' g' Bilinear be x y G' RX' RY' LX' LY' AX' AY').
    + destruct be; cbn [same_answer]; auto.
    + left. intro H. apply IX. exact (same_values_inside (ZReal ax') (ZReal ax) x (same_values_sym _ _ SX) H).
Qed.
Print Assumptions C104_bilinear.

(** ** Three dimensions *)
Lemma z_size_pos : forall z, z_ok z -> 0 < z_size z.
Proof. intros z K. destruct (ok_some z K) as [v H]. apply z_at_iff in H as [H _]; [lia|exact K]. Qed.
Lemma z_inside_dec : forall z x, z_ok z -> z_inside z x \/ ~ z_inside z x.
Proof.
  intros z x K. pose proof (z_size_pos z K) as P. pose proof (z_mono z K) as M. set (n := z_size z) in *.
  assert (H0 : z_at_index z 0 (z_val z 0)) by (apply z_at_iff; [exact K|split; [fold n; lia|reflexivity]]).
  assert (H1 : z_at_index z (n - 1) (z_val z (n - 1))) by (apply z_at_iff; [exact K|split; [fold n; lia|reflexivity]]).
  assert (Bd : forall k v, z_at_index z k v -> if z_is_ascending z then (z_val z 0 <= v <= z_val z (n - 1))%Q else (z_val z (n - 1) <= v <= z_val z 0)%Q).
  { intros k v H. apply z_at_iff in H as [Hk ->]; [|exact K]. fold n in Hk.
    assert (A : k = 0 \/ 0 < k) by lia. assert (B : k = n - 1 \/ k < n - 1) by lia.
    destruct A as [->|A]; destruct B as [B|B]; [rewrite <- B| |rewrite B|].
    - destruct (z_is_ascending z); lra.
    - pose proof (M 0 (n - 1) ltac:(lia) ltac:(lia)). destruct (z_is_ascending z); lra.
    - pose proof (M 0 (n - 1) ltac:(lia) ltac:(lia)). destruct (z_is_ascending z); lra.
    - pose proof (M 0 k ltac:(lia) ltac:(lia)). pose proof (M k (n - 1) ltac:(lia) ltac:(lia)). destruct (z_is_ascending z); lra. }
  destruct (z_is_ascending z) eqn:A.
  - destruct (Qlt_le_dec x (z_val z 0)); [right; intros (k & v & l & w & Hk & Hl & ? & ?); specialize (Bd k v Hk); lra|].
    destruct (Qlt_le_dec (z_val z (n - 1)) x); [right; intros (k & v & l & w & Hk & Hl & ? & ?); specialize (Bd l w Hl); lra|].
    left. exists 0, (z_val z 0), (n - 1), (z_val z (n - 1)). auto.
  - destruct (Qlt_le_dec x (z_val z (n - 1))); [right; intros (k & v & l & w & Hk & Hl & ? & ?); specialize (Bd k v Hk); lra|].
    destruct (Qlt_le_dec (z_val z 0) x); [right; intros (k & v & l & w & Hk & Hl & ? & ?); specialize (Bd l w Hl); lra|].
    left. exists (n - 1), (z_val z (n - 1)), 0, (z_val z 0). auto.
Qed.
Lemma usable_ok : forall z, z_usable z -> z_ok z.
Proof.
  intros [a|c] (L & U); cbn [z_ok z_size] in *; [apply reachable_ok; apply U|].
  destruct U as (l & As & U). pose proof (i_wf_usable c l As U) as W. split; [lia|]. intros i j Hij Hj. apply (i_mono c W i j Hij Hj).
Qed.
Lemma same_field_values3 : forall z1 z2 z3 a z1' z2' z3' a', z_ok z1 -> z_ok z2 -> z_ok z3 -> z_ok z1' -> z_ok z2' -> z_ok z3' -> same_field [z1; z2; z3] a [z1'; z2'; z3'] a' ->
  same_values z3 z3'.
Proof.
  intros z1 z2 z3 a z1' z2' z3' a' K1 K2 K3 K1' K2' K3' [S _].
  destruct (ok_some z1 K1) as [o1 O1]. destruct (ok_some z2 K2) as [o2 O2]. destruct (ok_some z1' K1') as [p1 P1]. destruct (ok_some z2' K2') as [p2 P2].
  split; intros i v H.
  - destruct (proj1 (S [o1; o2; v])) as [j L]; [exists [0; 0; i]; cbn [located]; auto using at_located|]. destruct j as [|? [|? [|j [|]]]]; cbn [located] in L; try tauto. destruct L as [_ [_ [(w & W & E) _]]]. eauto.
  - destruct (proj2 (S [p1; p2; v])) as [j L]; [exists [0; 0; i]; cbn [located]; auto using at_located|]. destruct j as [|? [|? [|j [|]]]]; cbn [located] in L; try tauto. destruct L as [_ [_ [(w & W & E) _]]]. eauto.
Qed.
Lemma level_field : forall ax ay az a g ax' ay' az' a' g' k k' v v', new_grid3 ax ay az a = Ok g -> new_grid3 ax' ay' az' a' = Ok g' ->
  z_at_index az k v -> z_at_index az' k' v' -> (v == v')%Q -> same_field [ZReal ax; ZReal ay; az] a [ZReal ax'; ZReal ay'; az'] a' ->
  same_field [ZReal ax; ZReal ay] (g2_array (level g k)) [ZReal ax'; ZReal ay'] (g2_array (level g' k')).
Proof.
  intros ax ay az a g ax' ay' az' a' g' k k' v v' G G' H H' E [S V]. split.
  - intro l. split; intros [i L].
    + destruct i as [|i [|j [|]]], l as [|p [|q [|]]]; cbn [located] in L; try tauto. destruct L as (L1 & L2 & _).
      destruct (proj1 (S [p; q; v])) as [m L]; [exists [i; j; k]; cbn [located]; auto using at_located|]. destruct m as [|i' [|j' [|? [|]]]]; cbn [located] in L; try tauto.
      exists [i'; j']. cbn [located]. tauto.
    + destruct i as [|i [|j [|]]], l as [|p [|q [|]]]; cbn [located] in L; try tauto. destruct L as (L1 & L2 & _).
      destruct (proj2 (S [p; q; v'])) as [m L]; [exists [i; j; k']; cbn [located]; auto using at_located|]. destruct m as [|i' [|j' [|? [|]]]]; cbn [located] in L; try tauto.
      exists [i'; j']. cbn [located]. tauto.
  - intros l i j L L'. destruct i as [|i [|i2 [|]]], l as [|p [|q [|]]]; cbn [located] in L; try tauto. destruct j as [|j [|j2 [|]]]; cbn [located] in L'; try tauto.
    rewrite (level_cell ax ay az a g i i2 k G), (level_cell ax' ay' az' a' g' j j2 k' G').
    apply (V [p; q; v]); cbn [located]; [destruct L as (A & B & _); split; [exact A|]; split; [exact B|]; auto using at_located|].
    destruct L' as (A & B & _). split; [exact A|]. split; [exact B|]. split; [exists v'; split; [exact H'|lra]|exact I].
Qed.
Theorem C104_trilinear : forall d c d' c' ax ay az a g ax' ay' az' a' g' be x y z,
  new_grid3 ax ay az a = Ok g -> new_grid3 ax' ay' az' a' = Ok g' ->
  reachable ax -> reachable ay -> reachable ax' -> reachable ay' -> 1 < len ax -> 1 < len ay -> 1 < len ax' -> 1 < len ay' ->
  is_angle ax = false -> is_angle ay = false -> is_angle ax' = false -> is_angle ay' = false ->
  z_usable az -> z_usable az' -> z_coordinate az z -> z_coordinate az' z ->
  same_field [ZReal ax; ZReal ay; az] a [ZReal ax'; ZReal ay'; az'] a' -> full3 ax ay az a ->
  same_answer (trivariate d c g Bilinear linear_z be x y z) (trivariate d' c' g' Bilinear linear_z be x y z).
Proof.
  intros d c d' c' ax ay az a g ax' ay' az' a' g' be x y z G G' RX RY RX' RY' LX LY LX' LY' AX AY AX' AY' U U' Cz Cz' SF F.
  pose proof (reachable_ok _ RX) as OX. pose proof (reachable_ok _ RY) as OY. pose proof (reachable_ok _ RX') as OX'. pose proof (reachable_ok _ RY') as OY'.
  pose proof (usable_ok _ U) as OZ. pose proof (usable_ok _ U') as OZ'.
  pose proof (same_field_values3 (ZReal ax) (ZReal ay) az a (ZReal ax') (ZReal ay') az' a' OX OY OZ OX' OY' OZ' SF) as SZ.
  destruct (z_inside_dec az z OZ) as [IZ|IZ].
  2:{ rewrite (C55_outside d c ax ay az a g Bilinear linear_z be x y z G RX RY LX LY U Cz IZ).
      rewrite (C55_outside d' c' ax' ay' az' a' g' Bilinear linear_z be x y z G' RX' RY' LX' LY' U' Cz').
      - destruct be; cbn [same_answer]; auto.
      - intro H. apply IZ. exact (same_values_inside az' az z (same_values_sym _ _ SZ) H). }
  pose proof (same_values_inside az az' z SZ IZ) as IZ'.
  destruct (C55_levels d c ax ay az a g "linear" linear_z z G RX RY LX LY U Cz IZ eq_refl) as (k0 & k1 & z0 & z1 & CZ & H).
  destruct (C55_levels d' c' ax' ay' az' a' g' "linear" linear_z z G' RX' RY' LX' LY' U' Cz' IZ' eq_refl) as (l0 & l1 & w0 & w1 & CZ' & H').
  destruct (H k0) as [_ E]. destruct (H' l0) as [_ E']. rewrite (E Bilinear be x y), (E' Bilinear be x y). clear E E'.
  pose proof CZ as (Z0 & Z1 & Ad & _). pose proof CZ' as (W0 & W1 & Ad' & _).
  assert (SA : forall k l v w, z_at_index az k v -> z_at_index az' l w -> (v == w)%Q ->
    same_answer (bivariate d c (level g k) Bilinear be x y) (bivariate d' c' (level g' l) Bilinear be x y)).
  { intros k l v w Hk Hl Ev. destruct (H k) as [Gk _]. destruct (H' l) as [Gl _].
    eapply (C104_bilinear d c d' c' ax ay _ (level g k) ax' ay' _ (level g' l)); try eassumption.
    - eapply level_field; eassumption.
    - apply (level_full ax ay az a g k G F). apply z_at_iff in Hk as [Hk _]; [exact Hk|exact OZ]. }
  assert (Al : (forall k v, z_at_index az k v -> exists r, bivariate d c (level g k) Bilinear be x y = Ok (Some r)) \/
    (forall k, bivariate d c (level g k) Bilinear be x y = if be then Throw "out of bounds" else Ok None)).
  { destruct (z_inside_dec (ZReal ax) x OX) as [IX|IX]; [destruct (z_inside_dec (ZReal ay) y OY) as [IY|IY]|].
    - left. intros k v Hk. destruct (H k) as [Gk _].
      assert (Fk : full ax ay (g2_array (level g k))) by (apply (level_full ax ay az a g k G F); apply z_at_iff in Hk as [Hk _]; [exact Hk|exact OZ]).
      destruct (full_bilinear d c ax ay _ _ be x y Gk RX RY LX LY AX AY IX IY Fk) as (? & ? & ? & ? & ? & ? & ? & ? & r & _ & _ & _ & _ & _ & _ & _ & _ & V & _). eauto.
    - right. intro k. destruct (H k) as [Gk _]. apply (C52_outside d c ax ay _ _ Bilinear be x y Gk RX RY LX LY AX AY). right. exact IY.
    - right. intro k. destruct (H k) as [Gk _]. apply (C52_outside d c ax ay _ _ Bilinear be x y Gk RX RY LX LY AX AY). left. exact IX. }
  assert (SZ' := SZ). destruct SZ' as [S1 S2].
  assert (Back : forall l w, z_at_index az' l w -> exists k v, z_at_index az k v /\ (v == w)%Q) by exact S2.
  destruct Al as [Al|Al].
  - set (q := fun k => match bivariate d c (level g k) Bilinear be x y with Ok (Some r) => r | _ => 0%Q end).
    set (q' := fun l => match bivariate d' c' (level g' l) Bilinear be x y with Ok (Some r) => r | _ => 0%Q end).
    assert (B : forall k v, z_at_index az k v -> bivariate d c (level g k) Bilinear be x y = Ok (Some (q k))).
    { intros k v Hk. destruct (Al k v Hk) as [r R]. unfold q. rewrite R. reflexivity. }
    assert (B' : forall l w, z_at_index az' l w -> bivariate d' c' (level g' l) Bilinear be x y = Ok (Some (q' l))).
    { intros l w Hl. destruct (Back l w Hl) as (k & v & Hk & Ev). pose proof (SA k l v w Hk Hl Ev) as X. rewrite (B k v Hk) in X. cbn [same_answer] in X.
      unfold q'. destruct (bivariate d' c' (level g' l) Bilinear be x y) as [[r|]| |]; try contradiction. reflexivity. }
    rewrite (B k0 z0 Z0), (B k1 z1 Z1), (B' l0 w0 W0), (B' l1 w1 W1). cbn [obind same_answer].
    assert (N : ~ (z0 == z1)%Q) by (apply (at_neq az k0 k1); auto; lia). assert (N' : ~ (w0 == w1)%Q) by (apply (at_neq az' l0 l1); auto; lia).
    destruct (proj1 (C55_methods z z0 z1 N) (q k0) (q k1)) as (r & -> & Er). destruct (proj1 (C55_methods z w0 w1 N') (q' l0) (q' l1)) as (r' & -> & Er').
    rewrite Er, Er'. apply (lerp_cells az az' q q' z k0 k1 z0 z1 l0 l1 w0 w1 OZ OZ' SZ); [|exact CZ|exact CZ'].
    intros k l v w Hk Hl Ev. pose proof (SA k l v w Hk Hl Ev) as X. rewrite (B k v Hk), (B' l w Hl) in X. exact X.
  - destruct (Back l0 w0 W0) as (k & v & Hk & Ev). pose proof (SA k l0 v w0 Hk W0 Ev) as X0. rewrite Al in X0.
    destruct (Back l1 w1 W1) as (k' & v' & Hk' & Ev'). pose proof (SA k' l1 v' w1 Hk' W1 Ev') as X1. rewrite Al in X1.
    rewrite !Al. destruct be; cbn [obind].
    + destruct (bivariate d' c' (level g' l0) Bilinear true x y) as [[?|]| |]; cbn [same_answer] in X0; try contradiction. subst. reflexivity.
    + destruct (bivariate d' c' (level g' l0) Bilinear false x y) as [[?|]| |]; cbn [same_answer] in X0; try contradiction.
      destruct (bivariate d' c' (level g' l1) Bilinear false x y) as [[?|]| |]; cbn [same_answer] in X1; try contradiction. cbn [obind].
      assert (NN : forall p q r, linear_z p q r None None = None) by (intros p q r; unfold linear_z; cbv zeta; destruct (Qeq_bool (r - q) 0); [destruct (Qeq_bool p q); reflexivity|reflexivity]).
      rewrite !NN. exact I.
Qed.
Print Assumptions C104_trilinear.
