(** [GeoHash.grid] and the units of the coordinates (C117). *)
From Verif Require Import Base BaseProofs MathModel MathProofs AxisModel GeohashModel GeohashSpec GeohashProofs GeohashProofs2
  GeohashProofs3 GeohashProofs4 GeohashProofs5 GeohashProofs6 GeohashProofs7 GeohashProofs8 GeohashClassModel GeohashProps
  GeohashClassProps UniformAxis GeohashClassProofs GeohashClassProps2 GridModel XarrayModel XarraySpec.
From Coq Require Import Ascii Sorted.
Open Scope Z_scope.

Lemma zrange_length : forall n, length (zrange n) = Z.to_nat n.
Proof. intros. unfold zrange. rewrite map_length, seq_length. reflexivity. Qed.
Lemma zrange_nth : forall n k j, nth_error (zrange n) k = Some j -> j = Z.of_nat k /\ 0 <= j < n.
Proof.
  intros n k j H. unfold zrange in H. rewrite nth_error_map in H. destruct (nth_error (seq 0 (Z.to_nat n)) k) as [m|] eqn:E; [|discriminate].
  cbn in H. assert (Lt : (k < Z.to_nat n)%nat) by (rewrite <- (seq_length (Z.to_nat n) 0); apply nth_error_Some; congruence).
  rewrite (nth_error_nth' _ 0%nat) in E by (rewrite seq_length; exact Lt). rewrite seq_nth in E by exact Lt.
  assert (m = k) by (cbn in E; congruence). subst m. assert (j = Z.of_nat k) by congruence. lia.
Qed.
Lemma zrange_nth_ok : forall n k, (k < Z.to_nat n)%nat -> nth_error (zrange n) k = Some (Z.of_nat k).
Proof.
  intros n k H. destruct (nth_error (zrange n) k) as [j|] eqn:E; [f_equal; symmetry; symmetry; apply (zrange_nth n k j E)|].
  apply nth_error_None in E. rewrite zrange_length in E. lia.
Qed.

(** The counts of [grid_properties] are the dimensions of the enumeration. *)
Lemma grid_block : forall bmi2 b p, (1 <= p <= 62)%nat -> wf_box b ->
  exists h a0 b0 nc nr, grid_properties bmi2 b (Z.of_nat p) = Ok (h, nc, nr) /\ is_code (Z.of_nat p) h /\
    bounding_boxes bmi2 b (Z.of_nat p) = Ok (block p a0 b0 nc nr) /\
    0 <= a0 /\ 0 <= nc /\ a0 + nc <= 2 ^ lonb (Z.of_nat p) /\ 0 <= b0 /\ 0 <= nr /\ b0 + nr <= 2 ^ latb (Z.of_nat p).
Proof.
  intros bmi2 b p Hp Hw. pose proof Hw as ((r1 & r2 & r3 & r4) & (s1 & s2 & s3 & s4) & L1 & L2).
  pose proof (bits_nonneg p) as (_ & B1 & B2).
  pose proof (qidx_range (p_lon (min_corner b)) 180 _ ltac:(reflexivity) r1 B1) as Ra0.
  pose proof (qidx_range (p_lat (min_corner b)) 90 _ ltac:(reflexivity) r3 B2) as Rb0.
  pose proof (qidx_range (p_lon (max_corner b)) 180 _ ltac:(reflexivity) s1 B1) as Ra1.
  pose proof (qidx_range (p_lat (max_corner b)) 90 _ ltac:(reflexivity) s3 B2) as Rb1.
  pose proof (qidx_mono _ _ 180 _ ltac:(reflexivity) r1 L1 B1) as Ma.
  pose proof (qidx_mono _ _ 90 _ ltac:(reflexivity) r3 L2 B2) as Mb.
  destruct (code_at_ok p _ _ Ra0 Rb0) as (C & _ & _). fold (sw_code b p) in C.
  exists (sw_code b p), (qidx (p_lon (min_corner b)) 180 (lonb (Z.of_nat p))), (qidx (p_lat (min_corner b)) 90 (latb (Z.of_nat p))).
  destruct (grid_properties_ok bmi2 b p Hp Hw) as [[O G]|[O G]]; destruct (bounding_boxes_block bmi2 b p Hp Hw) as [[O' E]|[O' E]]; try contradiction.
  - exists 1, 1. split; [exact G|]. split; [exact C|]. split; [|lia]. rewrite E. unfold block. change (zrange 1) with [0].
    cbn [flat_map map app]. rewrite !Z.add_0_r. reflexivity.
  - exists (ncols b p), (nrows b p). split; [exact G|]. split; [exact C|]. split; [exact E|].
    unfold ncols, nrows. destruct (Qeq_bool (p_lon (max_corner b)) 180) eqn:Q1; destruct (Qeq_bool (p_lat (max_corner b)) 90) eqn:Q2; lia.
Qed.

Lemma reshape_flat : forall (A V : Type) (r : A -> list V) m l, (forall a, In a l -> length (r a) = m) ->
  reshape_rows (length l) m (flat_map r l) = map r l.
Proof.
  intros A V r m l. induction l as [|a l IH]; intro H; [reflexivity|]. cbn [length reshape_rows flat_map map].
  pose proof (H a (or_introl eq_refl)) as E. rewrite firstn_app, skipn_app, <- E, firstn_all, skipn_all, Nat.sub_diag. cbn [firstn skipn app].
  rewrite app_nil_r, E, IH; [reflexivity|]. intros x I. apply H. right. exact I.
Qed.

Lemma flat_length : forall (A V : Type) (r : A -> list V) m l, (forall a, In a l -> length (r a) = m) ->
  length (flat_map r l) = (length l * m)%nat.
Proof.
  intros A V r m l. induction l as [|a l IH]; intro H; [reflexivity|]. cbn [length flat_map]. rewrite app_length, IH, (H a (or_introl eq_refl)); [lia|].
  intros x I. apply H. right. exact I.
Qed.

Lemma nth_error_rev : forall (A : Type) (l : list A) i, (i < length l)%nat -> nth_error (rev l) i = nth_error l (length l - 1 - i).
Proof.
  intros A l. induction l as [|a l IH]; intros i H; [cbn in H; lia|]. cbn [rev length] in *.
  destruct (Nat.eq_dec i (length l)) as [->|N].
  - rewrite nth_error_app2 by (rewrite rev_length; lia). rewrite rev_length, Nat.sub_diag.
    replace (S (length l) - 1 - length l)%nat with 0%nat by lia. reflexivity.
  - rewrite nth_error_app1 by (rewrite rev_length; lia). rewrite IH by lia.
    replace (S (length l) - 1 - i)%nat with (S (length l - 1 - i)) by lia. reflexivity.
Qed.

Definition decreasing (l : list Q) : Prop :=
  forall i j x y, (i < j)%nat -> nth_error l i = Some x -> nth_error l j = Some y -> (y < x)%Q.

Lemma Forall2_nth : forall (A B : Type) (R : A -> B -> Prop) l m i x y, Forall2 R l m -> nth_error l i = Some x -> nth_error m i = Some y -> R x y.
Proof.
  intros A B R l m i x y F. revert i. induction F; intros [|i] Hx Hy; try discriminate; cbn [nth_error] in *; [|eauto].
  assert (x0 = x) by congruence. assert (y0 = y) by congruence. subst. assumption.
Qed.
Lemma Forall2_len : forall (A B : Type) (R : A -> B -> Prop) l m, Forall2 R l m -> length l = length m.
Proof. intros A B R l m F. induction F; cbn; congruence. Qed.

(** The rectangle of codes of a box: as many rows and columns as [grid_properties] says,
    from north to south and from west to east; the coordinates are the centres of the cells;
    the codes are those of [bounding_boxes]. *)
Theorem C117_grid : forall bmi2 ob n, (1 <= n <= 12)%nat ->
  let b := match ob with Some b => b | None => whole_earth end in
  box_on_earth (p_lon (min_corner b)) (p_lon (max_corner b)) (p_lat (min_corner b)) (p_lat (max_corner b)) ->
  exists sw nlon nlat codes, ghc_grid_properties bmi2 b (Z.of_nat n) = Ok (sw, nlon, nlat) /\
    str_encode bmi2 (min_corner b) (Z.of_nat n) = Ok sw /\
    str_bounding_boxes bmi2 b (Z.of_nat n) = Ok codes /\ zlen codes = nlon * nlat /\
    (codes <> [] -> exists g, pgh_grid bmi2 ob (Z.of_nat n) = Ok g /\
       zlen (hg_lat g) = nlat /\ zlen (hg_lon g) = nlon /\ increasing (hg_lon g) /\ decreasing (hg_lat g) /\
       zlen (hg_rows g) = nlat /\ Forall (fun r => zlen r = nlon) (hg_rows g) /\
       (forall t, In t codes <-> exists i j, cell_value (hg_rows g) i j = Some t) /\
       forall i j t, cell_value (hg_rows g) i j = Some t ->
         exists h x y, length t = n /\ reads_as t 0 h /\ nth_error (hg_lon g) j = Some x /\ nth_error (hg_lat g) i = Some y /\
           (x == center_lon (cell_of (5 * n) h) /\ y == center_lat (cell_of (5 * n) h))%Q) /\
    (codes = [] -> exists w, pgh_grid bmi2 ob (Z.of_nat n) = Throw w).
Proof.
  intros bmi2 ob n Hn b Hb. apply wf_box_earth in Hb. set (p := (5 * n)%nat).
  destruct (grid_block bmi2 b p ltac:(lia) Hb) as (h0 & a0 & b0 & nc & nr & G & C0 & E & A0 & A1 & A2 & A3 & A4 & A5).
  pose proof (bits_nonneg p) as (_ & B1 & B2).
  set (enc := fun h => b32_encode h n).
  destruct (C26_roundtrip n h0 ltac:(lia) ltac:(rewrite <- of_nat_5; exact C0)) as (T1 & T2 & _).
  assert (Gp : ghc_grid_properties bmi2 b (Z.of_nat n) = Ok (enc h0, nc, nr)).
  { unfold ghc_grid_properties. replace (Z.of_nat n * 5) with (Z.of_nat p) by lia. rewrite G. cbn [obind].
    destruct (C30_decode_partial bmi2 bmi2 p h0 false ltac:(lia) C0 ltac:(left; lia)) as (pt & D & I & _). rewrite D. cbn [obind].
    assert (M : ghc_make bmi2 (p_lon pt) (p_lat pt) (zlen (enc h0)) = Ok (enc h0)).
    { apply (make_text bmi2 (enc h0) h0); [unfold enc; lia|exact T2|]. unfold enc. rewrite T1. exact I. }
    unfold zlen, enc in M. rewrite T1 in M. unfold enc. rewrite M. reflexivity. }
  assert (Sw : str_encode bmi2 (min_corner b) (Z.of_nat n) = Ok (enc h0)).
  { unfold str_encode. replace (5 * Z.of_nat n) with (Z.of_nat p) by lia.
    unfold grid_properties in G. destruct (gh_encode bmi2 (min_corner b) (Z.of_nat p)) as [h'| |] eqn:Eg; try discriminate G. cbn [obind] in *.
    assert (h' = h0); [|subst h'; rewrite Nat2Z.id; reflexivity].
    destruct (bounding_box bmi2 h' (Z.of_nat p)); try discriminate G. cbn [obind] in G.
    destruct (gh_encode bmi2 (max_corner b) (Z.of_nat p)); try discriminate G. cbn [obind] in G.
    destruct (bounding_box bmi2 _ (Z.of_nat p)); try discriminate G. cbn [obind] in G.
    destruct (box_eqb _ _); [congruence|]. destruct (error_with_precision (Z.of_nat p)).
    destruct (round_to_size _); try discriminate G. cbn [obind] in G. destruct (round_to_size _); try discriminate G. cbn [obind] in G. congruence. }
  set (row := fun j => map (fun i => enc (code_at p (a0 + i) (b0 + j))) (zrange nc)).
  assert (Ec : str_bounding_boxes bmi2 b (Z.of_nat n) = Ok (flat_map row (zrange nr))).
  { unfold str_bounding_boxes. replace (Z.of_nat n * 5) with (Z.of_nat p) by lia. rewrite E, Nat2Z.id. cbn [obind]. f_equal.
    unfold block, row. induction (zrange nr) as [|j l IH]; [reflexivity|]. cbn [flat_map]. rewrite map_app, IH. f_equal. rewrite map_map. reflexivity. }
  assert (Lr : forall j, length (row j) = Z.to_nat nc) by (intro; unfold row; rewrite map_length, zrange_length; reflexivity).
  assert (Lz : length (flat_map row (zrange nr)) = (Z.to_nat nr * Z.to_nat nc)%nat).
  { rewrite (flat_length _ _ row (Z.to_nat nc)) by (intros; apply Lr). rewrite zrange_length. reflexivity. }
  assert (Zc : zlen (flat_map row (zrange nr)) = nr * nc) by (unfold zlen; rewrite Lz; lia).
  assert (Rs : reshape nr nc (flat_map row (zrange nr)) = Ok (map row (zrange nr))).
  { unfold reshape. rewrite Zc, Z.eqb_refl. rewrite <- (zrange_length nr). rewrite reshape_flat by (intros; apply Lr). reflexivity. }
  exists (enc h0), nc, nr, (flat_map row (zrange nr)). split; [exact Gp|]. split; [exact Sw|]. split; [exact Ec|]. split; [rewrite Zc; ring|].
  assert (Unf : pgh_grid bmi2 ob (Z.of_nat n) =
    match rev (rev (map row (zrange nr))) with
    | [] => Throw "IndexError"
    | bottom :: _ =>
      olet (lon, _) := str_decode_array bmi2 (Z.of_nat n) bottom false in
      olet col := oseq (map (fun r => match r with [] => Throw "IndexError" | c :: _ => Ok c end) (rev (map row (zrange nr)))) in
      olet (_, lat) := str_decode_array bmi2 (Z.of_nat n) col false in
      Ok (mk_hash_grid lon "degrees_north" lat "degrees_east" (rev (map row (zrange nr))))
    end).
  { unfold pgh_grid. fold b. rewrite Gp. cbn [obind]. destruct (Z.ltb_spec 12 (Z.of_nat n)); [lia|]. rewrite Ec. cbn [obind]. rewrite Rs. reflexivity. }
  rewrite rev_involutive in Unf. split.
  - intro Ne. assert (Pr : 0 < nr /\ 0 < nc).
    { destruct (flat_map row (zrange nr)) eqn:Fm; [congruence|]. cbn in Lz. assert (Z.to_nat nr <> 0 /\ Z.to_nat nc <> 0)%nat by (split; intro X; rewrite X in Lz; lia). lia. }
    destruct Pr as [Pr Pc].
    assert (Cod : forall i j, 0 <= i < nc -> 0 <= j < nr -> is_code (Z.of_nat p) (code_at p (a0 + i) (b0 + j)) /\
              lonx p (code_at p (a0 + i) (b0 + j)) = a0 + i /\ latx p (code_at p (a0 + i) (b0 + j)) = b0 + j).
    { intros i j Hi Hj. apply code_at_ok; lia. }
    (* longitudes *)
    destruct (decode_codes bmi2 n (map (fun i => code_at p (a0 + i) (b0 + 0)) (zrange nc)) Hn) as (xs & ys' & Dx & Fx & _).
    { apply Forall_forall. intros h I. apply in_map_iff in I. destruct I as (i & <- & Ii). apply In_nth_error in Ii. destruct Ii as (k & Hk).
      apply zrange_nth in Hk. apply Cod; lia. }
    (* latitudes *)
    destruct (decode_codes bmi2 n (map (fun j => code_at p (a0 + 0) (b0 + j)) (rev (zrange nr))) Hn) as (xs' & ys & Dy & _ & Fy).
    { apply Forall_forall. intros h I. apply in_map_iff in I. destruct I as (j & <- & Ij). apply in_rev in Ij. apply In_nth_error in Ij. destruct Ij as (k & Hk).
      apply zrange_nth in Hk. apply Cod; lia. }
    rewrite map_map in Dx, Dy.
    assert (Col : oseq (map (fun r : list (list ascii) => match r with [] => Throw "IndexError" | c :: _ => Ok c end) (rev (map row (zrange nr)))) =
              Ok (map (fun j => enc (code_at p (a0 + 0) (b0 + j))) (rev (zrange nr)))).
    { rewrite <- map_rev. generalize (rev (zrange nr)) as l. intro l. induction l as [|j l IH]; [reflexivity|]. cbn [map oseq].
      unfold row at 1. replace (zrange nc) with (0 :: map Z.of_nat (seq 1 (Z.to_nat nc - 1))).
      - cbn [map obind]. rewrite IH. reflexivity.
      - unfold zrange. replace (Z.to_nat nc) with (S (Z.to_nat nc - 1)) at 2 by lia. reflexivity. }
    assert (Hd : exists rest, map row (zrange nr) = row 0 :: rest).
    { unfold zrange. replace (Z.to_nat nr) with (S (Z.to_nat nr - 1)) by lia. cbn [seq map]. eexists. reflexivity. }
    destruct Hd as (rest & Hd). rewrite Hd in Unf. unfold row in Unf at 1. fold row in Unf.
    change (fun i => enc (code_at p (a0 + i) (b0 + 0))) with (fun x => b32_encode (code_at p (a0 + x) (b0 + 0)) n) in Unf.
    rewrite Dx in Unf. cbn [obind] in Unf. rewrite <- Hd in Unf. rewrite Col in Unf. cbn [obind] in Unf.
    change (fun j => enc (code_at p (a0 + 0) (b0 + j))) with (fun x => b32_encode (code_at p (a0 + 0) (b0 + x)) n) in Unf.
    rewrite Dy in Unf. cbn [obind] in Unf.
    exists (mk_hash_grid xs "degrees_north" ys "degrees_east" (rev (map row (zrange nr)))). split; [exact Unf|].
    cbn [hg_lon hg_lat hg_rows].
    assert (Lx : length xs = Z.to_nat nc) by (rewrite (Forall2_len _ _ _ _ _ Fx), map_length, zrange_length; reflexivity).
    assert (Ly : length ys = Z.to_nat nr) by (rewrite (Forall2_len _ _ _ _ _ Fy), map_length, rev_length, zrange_length; reflexivity).
    assert (Vx : forall j x, nth_error xs j = Some x -> (j < Z.to_nat nc)%nat /\ (x == mid 180 (lonb (Z.of_nat p)) (a0 + Z.of_nat j))%Q).
    { intros j x Hx. assert (Lj : (j < Z.to_nat nc)%nat) by (rewrite <- Lx; apply nth_error_Some; congruence). split; [exact Lj|].
      rewrite (Forall2_nth _ _ _ _ _ j x (code_at p (a0 + Z.of_nat j) (b0 + 0)) Fx Hx).
      - destruct (Cod (Z.of_nat j) 0 ltac:(lia) ltac:(lia)) as (_ & Q1 & _). fold p. rewrite Q1. reflexivity.
      - rewrite nth_error_map, zrange_nth_ok by exact Lj. reflexivity. }
    assert (Vy : forall i y, nth_error ys i = Some y -> (i < Z.to_nat nr)%nat /\ (y == mid 90 (latb (Z.of_nat p)) (b0 + (nr - 1 - Z.of_nat i)))%Q).
    { intros i y Hy. assert (Li : (i < Z.to_nat nr)%nat) by (rewrite <- Ly; apply nth_error_Some; congruence). split; [exact Li|].
      rewrite (Forall2_nth _ _ _ _ _ i y (code_at p (a0 + 0) (b0 + (nr - 1 - Z.of_nat i))) Fy Hy).
      - destruct (Cod 0 (nr - 1 - Z.of_nat i) ltac:(lia) ltac:(lia)) as (_ & _ & Q2). fold p. rewrite Q2. reflexivity.
      - rewrite nth_error_map, nth_error_rev by (rewrite zrange_length; exact Li). rewrite zrange_length, zrange_nth_ok by lia.
        cbn [option_map]. do 2 f_equal. lia. }
    split; [unfold zlen; lia|]. split; [unfold zlen; lia|]. split; [|split; [|split; [|split; [|split]]]].
    + intros i j x y Lt Hx Hy. destruct (Vx i x Hx) as [_ Ex]. destruct (Vx j y Hy) as [_ Ey].
      rewrite Ex, Ey. rewrite mid_lin by exact B1. rewrite (mid_lin _ _ (a0 + Z.of_nat j)) by exact B1.
      pose proof (inject_pow_pos _ B1) as P1. assert (D : (0 < 2 * 180 / inject_Z (2 ^ lonb (Z.of_nat p)))%Q) by (apply Qlt_shift_div_l; lra).
      apply Qplus_lt_r. apply Qmult_lt_compat_r; [exact D|]. rewrite <- Zlt_Qlt. lia.
    + intros i j x y Lt Hx Hy. destruct (Vy i x Hx) as [_ Ex]. destruct (Vy j y Hy) as [_ Ey].
      rewrite Ex, Ey. rewrite mid_lin by exact B2. rewrite (mid_lin _ _ (b0 + (nr - 1 - Z.of_nat i))) by exact B2.
      pose proof (inject_pow_pos _ B2) as P2. assert (D : (0 < 2 * 90 / inject_Z (2 ^ latb (Z.of_nat p)))%Q) by (apply Qlt_shift_div_l; lra).
      apply Qplus_lt_r. apply Qmult_lt_compat_r; [exact D|]. rewrite <- Zlt_Qlt. lia.
    + unfold zlen. rewrite rev_length, map_length, zrange_length. lia.
    + apply Forall_forall. intros r I. apply in_rev in I. apply in_map_iff in I. destruct I as (j & <- & _). unfold zlen. rewrite Lr. lia.
    + intro t. rewrite in_flat_map. split.
      * intros (j & Ij & It). assert (Ir : In (row j) (rev (map row (zrange nr)))) by (apply in_rev; rewrite rev_involutive; apply in_map; exact Ij).
        apply In_nth_error in Ir. destruct Ir as (i & Hi). apply In_nth_error in It. destruct It as (k & Hk). exists i, k. unfold cell_value. rewrite Hi. exact Hk.
      * intros (i & k & Hc). unfold cell_value in Hc. destruct (nth_error (rev (map row (zrange nr))) i) as [r|] eqn:Hr; [|discriminate].
        apply nth_error_In in Hr. apply in_rev in Hr. apply in_map_iff in Hr. destruct Hr as (j & <- & Ij). exists j. split; [exact Ij|]. eapply nth_error_In; exact Hc.
    + intros i j t Hc. unfold cell_value in Hc. destruct (nth_error (rev (map row (zrange nr))) i) as [r|] eqn:Hr; [|discriminate].
      assert (Li : (i < Z.to_nat nr)%nat).
      { rewrite <- (zrange_length nr), <- (map_length row), <- rev_length. apply nth_error_Some. congruence. }
      rewrite nth_error_rev in Hr by (rewrite map_length, zrange_length; exact Li). rewrite map_length, zrange_length, nth_error_map, zrange_nth_ok in Hr by lia.
      cbn [option_map] in Hr. assert (Er : r = row (nr - 1 - Z.of_nat i)).
      { assert (X : r = row (Z.of_nat (Z.to_nat nr - 1 - i))) by congruence. rewrite X. f_equal. lia. }
      subst r. assert (Lj : (j < Z.to_nat nc)%nat) by (rewrite <- (Lr (nr - 1 - Z.of_nat i)); apply nth_error_Some; congruence).
      unfold row in Hc. rewrite nth_error_map, zrange_nth_ok in Hc by exact Lj. cbn [option_map] in Hc.
      destruct (Cod (Z.of_nat j) (nr - 1 - Z.of_nat i) ltac:(lia) ltac:(lia)) as (Q0 & Q1 & Q2).
      set (h := code_at p (a0 + Z.of_nat j) (b0 + (nr - 1 - Z.of_nat i))) in *. exists h.
      destruct (nth_error xs j) as [x|] eqn:Hx; [|apply nth_error_None in Hx; lia].
      destruct (nth_error ys i) as [y|] eqn:Hy; [|apply nth_error_None in Hy; lia]. exists x, y.
      assert (Et : t = enc h) by congruence. destruct (C26_roundtrip n h ltac:(lia) ltac:(rewrite <- of_nat_5; exact Q0)) as (U1 & U2 & _).
      split; [rewrite Et; exact U1|]. split; [rewrite Et; exact U2|]. split; [reflexivity|]. split; [reflexivity|].
      destruct (center_mid p h) as [M1 M2]. unfold center_lon, center_lat. rewrite M1, M2, Q1, Q2.
      split; [apply (Vx j x Hx)|apply (Vy i y Hy)].
  - intro Em. destruct (Z.eq_dec nr 0) as [->|Nr].
    + exists "IndexError"%string. exact Unf.
    + assert (nc = 0). { rewrite Em in Zc. unfold zlen in Zc. cbn in Zc. nia. } subst nc.
      exists "IndexError"%string. rewrite Unf. assert (R0 : forall j, row j = []) by (intro; reflexivity).
      unfold zrange at 1. replace (Z.to_nat nr) with (S (Z.to_nat nr - 1)) by lia. cbn [seq map]. rewrite R0.
      unfold str_decode_array at 1. destruct (Z.ltb_spec 12 (Z.of_nat n)); [lia|]. cbn [map oseq obind].
      rewrite <- map_rev. destruct (rev (zrange nr)) as [|j l] eqn:Rv.
      { exfalso. assert (X : length (rev (zrange nr)) = 0%nat) by (rewrite Rv; reflexivity). rewrite rev_length, zrange_length in X. lia. }
      cbn [map]. rewrite R0. reflexivity.
Qed.
Print Assumptions C117_grid.

(** A box crossed by no complete column of cells: documented to be covered, gives an error. *)
Theorem C117_empty_refuted : pgh_grid true (Some (Box (GeohashModel.Point 1 1) (GeohashModel.Point 2 50))) 1 = Throw "IndexError".
Proof. vm_compute. reflexivity. Qed.
Print Assumptions C117_empty_refuted.

(** The labelled array that carries a grid: _geohash.py:69-86, converter.py:43-54. *)
Definition labelled (V : Type) (g : hash_grid V) (a : ndarray) : data_array :=
  DataArray ["lat"; "lon"]%string
    [Coord "lon" (Some (hg_lon_units g)) ["lon"%string] (CReal (hg_lon g));
     Coord "lat" (Some (hg_lat_units g)) ["lat"%string] (CReal (hg_lat g))] a.

(** The units are exchanged: the longitudes are said to be in degrees north, the latitudes in
    degrees east.  Hence the geodetic grids of [backends.xarray] take the latitudes for the
    longitudes (their first axis, the one that is a circle). *)
Theorem C117_units_refuted :
  (forall bmi2 ob n g, pgh_grid bmi2 ob n = Ok g -> In (hg_lon_units g) cf_latitude /\ In (hg_lat_units g) cf_longitude) /\
  (forall bmi2 (V : Type) (init : V) n hashes data g, to_xarray bmi2 init n hashes data = Ok g ->
     In (hg_lon_units g) cf_latitude /\ In (hg_lat_units g) cf_longitude) /\
  (forall (V : Type) (g : hash_grid V) a, In (hg_lon_units g) cf_latitude -> In (hg_lat_units g) cf_longitude -> length (nd_shape a) = 2%nat ->
     dims_from_data_array (labelled V g a) true 2 = Ok ["lat"; "lon"]%string /\
     horizontal (labelled V g a) true "lat" "lon").
Proof.
  assert (U : In "degrees_north"%string cf_latitude /\ In "degrees_east"%string cf_longitude) by (split; left; reflexivity).
  split; [|split].
  - intros bmi2 ob n g H. unfold pgh_grid in H. destruct (ghc_grid_properties _ _ _) as [[[sw nlon] nlat]| |]; try discriminate H. cbn [obind] in H.
    destruct (if 12 <? n then _ else _) as [codes| |]; try discriminate H. cbn [obind] in H.
    destruct (reshape nlat nlon codes) as [rows| |]; try discriminate H. cbn [obind] in H.
    destruct (rev (rev rows)); try discriminate H. destruct (str_decode_array _ _ _ _) as [[lon l1]| |]; try discriminate H. cbn [obind] in H.
    destruct (oseq _) as [col| |]; try discriminate H. cbn [obind] in H.
    destruct (str_decode_array _ _ _ _) as [[l2 lat]| |]; try discriminate H. cbn [obind] in H.
    apply (f_equal (fun o => match o with Ok g => g | _ => g end)) in H. rewrite <- H. exact U.
  - intros bmi2 V init n hashes data g H. unfold to_xarray in H. destruct (negb _); try discriminate H.
    destruct (if 12 <? n then _ else _) as [codes| |]; try discriminate H. cbn [obind] in H.
    destruct (str_decode_array _ _ _ _) as [[l1 l2]| |]; try discriminate H. cbn [obind] in H.
    destruct (axis_of_values _ _ _) as [ax| |]; try discriminate H. cbn [obind] in H.
    destruct (axis_of_values _ _ _) as [ay| |]; try discriminate H. cbn [obind] in H.
    destruct (str_decode_array _ _ _ _) as [[l3 l4]| |]; try discriminate H. cbn [obind] in H.
    destruct (oseq _) as [iy| |]; try discriminate H. cbn [obind] in H.
    destruct (oseq _) as [ix| |]; try discriminate H. cbn [obind] in H.
    destruct (set_cells _ _ _ _) as [rows| |]; try discriminate H. cbn [obind] in H.
    destruct (axis_values _) as [xs| |]; try discriminate H. cbn [obind] in H.
    destruct (axis_values _) as [ys| |]; try discriminate H. cbn [obind] in H.
    apply (f_equal (fun o => match o with Ok g => g | _ => g end)) in H. rewrite <- H. exact U.
  - intros V g a Hlon Hlat La.
    assert (D : forall u, In u cf_latitude -> In u cf_longitude -> False).
    { intros u H1 H2. cbn in H1, H2. intuition congruence. }
    assert (Mlat : forall u, mem u latitude_units = true <-> In u cf_latitude).
    { intro u. unfold mem. rewrite existsb_exists. split; [intros (v & I & E); apply String.eqb_eq in E; subst; exact I|intro I; exists u; split; [exact I|apply String.eqb_refl]]. }
    assert (Mlon : forall u, mem u longitude_units = true <-> In u cf_longitude).
    { intro u. unfold mem. rewrite existsb_exists. split; [intros (v & I & E); apply String.eqb_eq in E; subst; exact I|intro I; exists u; split; [exact I|apply String.eqb_refl]]. }
    split.
    + unfold dims_from_data_array, identify, labelled. cbn [da_values da_coords find co_units co_name]. rewrite La. cbn [Nat.eqb negb].
      destruct (mem (hg_lon_units g) longitude_units) eqn:E1; [exfalso; apply Mlon in E1; eapply D; eassumption|].
      apply Mlon in Hlat. apply Mlat in Hlon. rewrite Hlat, Hlon. reflexivity.
    + split.
      * exists [Coord "lon" (Some (hg_lon_units g)) ["lon"%string] (CReal (hg_lon g))],
               (Coord "lat" (Some (hg_lat_units g)) ["lat"%string] (CReal (hg_lat g))), [], (hg_lat_units g).
        split; [reflexivity|]. split; [reflexivity|]. split; [reflexivity|]. split; [exact Hlat|].
        intros b [<-|[]] u Hu I. cbn [co_units] in Hu. assert (u = hg_lon_units g) by congruence. subst u. eapply D; eassumption.
      * exists [], (Coord "lon" (Some (hg_lon_units g)) ["lon"%string] (CReal (hg_lon g))),
               [Coord "lat" (Some (hg_lat_units g)) ["lat"%string] (CReal (hg_lat g))], (hg_lon_units g).
        split; [reflexivity|]. split; [reflexivity|]. split; [reflexivity|]. split; [exact Hlon|]. intros b [].
Qed.
Print Assumptions C117_units_refuted.

Example C117_ex : exists g, pgh_grid true (Some (Box (GeohashModel.Point (-10) 40) (GeohashModel.Point 20 56))) 2 = Ok g /\ map (map string_of_list_ascii) (hg_rows g) = [["gb"; "u0"]; ["ez"; "sp"]]%string.
Proof. eexists. split; [vm_compute; reflexivity|]. vm_compute. reflexivity. Qed.
