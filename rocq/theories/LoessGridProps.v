(** C128 The loess filter of whole grids: dimensions, slices and threads. *)
From Verif Require Import Base BaseProofs MathModel FillModel FillSpec LoessModel LoessSpec LoessProps ThreadModel ThreadProofs ThreadProps
  VectorModel VectorProps LoessGridModel.
Open Scope Z_scope.
Ltac Zify.zify_post_hook ::= idtac.

Lemma loess_prepare tricube xa ya a nx ny g vt ix iy : 1 <= nx -> 1 <= ny ->
  loess tricube xa ya a nx ny g vt ix iy = (olet p := prepare xa a nx ix in cell tricube xa ya a nx ny vt g p ix iy).
Proof.
  intros X Y. unfold loess, prepare, loess_cell, cell. destruct (Z.ltb_spec nx 1); [lia|]. destruct (Z.ltb_spec ny 1); [lia|].
  destruct (coordinate xa ix); cbn [obind]; [|reflexivity|reflexivity]. destruct (frame_index ix (zlen xa) a (nx * 2 + 1)); cbn [obind]; [|reflexivity|reflexivity].
  destruct (coordinate xa (hd 0 a1)); cbn [obind]; reflexivity.
Qed.

Lemma zseq_nth n i : 0 <= i < n -> nth_error (zseq n) (Z.to_nat i) = Some i.
Proof.
  intro H. unfold zseq. rewrite nth_error_map. rewrite (nth_error_nth' _ 0%nat) by (rewrite seq_length; lia).
  cbn. rewrite seq_nth by lia. f_equal. lia.
Qed.
Lemma zseq_len n : length (zseq n) = Z.to_nat n.
Proof. unfold zseq. rewrite map_length, seq_length. reflexivity. Qed.
Lemma oloop_all {A} (f : Z -> outcome A) l : (forall i, In i l -> exists a, f i = Ok a) ->
  exists r, oloop f l = Ok r /\ Forall2 (fun i a => f i = Ok a) l r.
Proof.
  induction l as [|i l IH]; intro H; [exists []; split; [reflexivity|constructor]|].
  destruct (H i (or_introl eq_refl)) as [a E]. destruct IH as (r & R & F); [intros j J; apply H; right; exact J|].
  exists (a :: r). cbn [oloop]. rewrite E. cbn [obind]. rewrite R. cbn [obind]. split; [reflexivity|constructor; assumption].
Qed.
Lemma F2_nth {A B} (R : A -> B -> Prop) l m i a : Forall2 R l m -> nth_error l i = Some a -> exists b, nth_error m i = Some b /\ R a b.
Proof.
  intros F. revert i. induction F as [|x y l m Hxy F IHF]; intros [|i] H; cbn in H; try discriminate; [|apply IHF; exact H].
  injection H as <-. exists y. split; [reflexivity|assumption].
Qed.
Lemma oloop_zseq {A} (f : Z -> outcome A) n : (forall i, 0 <= i < n -> exists a, f i = Ok a) ->
  exists r, oloop f (zseq n) = Ok r /\ zlen r = Z.max 0 n /\ forall i, 0 <= i < n -> exists a, znth r i = Some a /\ f i = Ok a.
Proof.
  intro H. destruct (oloop_all f (zseq n)) as (r & E & F).
  { intros i I. apply H. unfold zseq in I. apply in_map_iff in I. destruct I as (k & <- & K). apply in_seq in K. lia. }
  exists r. split; [exact E|]. split.
  - unfold zlen. rewrite <- (Forall2_length' F), zseq_len. lia.
  - intros i I. destruct (F2_nth _ _ _ _ _ F (zseq_nth n i I)) as (a & N & Ea). exists a. split; [|exact Ea].
    unfold znth. destruct (Z.ltb_spec i 0); [lia|]. exact N.
Qed.

(** Threads: when every index has a value, the result is made of these values, whatever the threads. *)
Lemma filtered_values {A} nx ny (f : Z -> outcome A) size num hw : 1 <= nx -> 1 <= ny -> 0 <= size -> usual num hw ->
  (forall i, 0 <= i < size -> exists a, f i = Ok a) ->
  (exists r, filtered nx ny f size num hw r) /\
  forall r, filtered nx ny f size num hw r -> exists l, r = Ok l /\ zlen l = size /\
    forall i, 0 <= i < size -> exists a, stored l i = Some (Ok a) /\ f i = Ok a.
Proof.
  intros X Y Hs U G. split.
  - destruct (dispatch_some size num hw U) as [l E]. destruct (reach_end (outcome A) (guarded f) size num hw l Hs U E) as (c & St & F).
    eexists. eapply Filtered_done; eassumption.
  - intros r R. destruct R as [H|H1 H|l c _ _ E St F|w _ _ E]; try lia; [|destruct (dispatch_some size num hw U) as [l E']; congruence].
    destruct U as [Hn Hh].
    destruct (C34_result (outcome A) (guarded f) size num hw l c Hs Hn Hh E St F) as (vs & An & L & W).
    { intros i I. destruct (G i I) as [a Ea]. unfold guarded. rewrite Ea. eexists. reflexivity. }
    exists (out c). split; [reflexivity|]. unfold answer in An. destruct (except c); [discriminate|].
    assert (O : out c = map Some vs) by congruence. rewrite O. split; [unfold zlen; rewrite map_length, L; lia|].
    intros i I. destruct (W i I) as (v & N & B). destruct (G i I) as [a Ea]. exists a. split; [|exact Ea].
    unfold guarded in B. rewrite Ea in B. unfold stored, znth. destruct (Z.ltb_spec i 0); [lia|].
    rewrite nth_error_map, N. cbn. congruence.
Qed.
Lemma filtered_det {A} nx ny (f : Z -> outcome A) size num hw num' hw' r r' : 1 <= nx -> 1 <= ny -> 0 <= size -> usual num hw -> usual num' hw' ->
  (forall i, 0 <= i < size -> exists a, f i = Ok a) ->
  filtered nx ny f size num hw r -> filtered nx ny f size num' hw' r' -> r = r'.
Proof.
  intros X Y Hs U U' G R R'. destruct (proj2 (filtered_values nx ny f size num hw X Y Hs U G) r R) as (l & -> & L & V).
  destruct (proj2 (filtered_values nx ny f size num' hw' X Y Hs U' G) r' R') as (l' & -> & L' & V'). f_equal.
  assert (N : forall i, nth_error l i = nth_error l' i).
  { intro i. unfold zlen in *. destruct (Nat.lt_ge_cases i (length l)).
    - assert (I : 0 <= Z.of_nat i < size) by lia. destruct (V _ I) as (a & S1 & E1). destruct (V' _ I) as (a' & S2 & E2).
      assert (a' = a) by congruence. subst a'. unfold stored, znth in S1, S2. destruct (Z.ltb_spec (Z.of_nat i) 0); [lia|].
      rewrite Nat2Z.id in S1, S2. destruct (nth_error l i); destruct (nth_error l' i); congruence.
    - transitivity (@None (option (outcome A))); [apply nth_error_None; lia|symmetry; apply nth_error_None; lia]. }
  clear - N. revert l' N. induction l as [|x l IH]; intros [|y l'] N; [reflexivity|specialize (N 0%nat); discriminate|specialize (N 0%nat); discriminate|].
  assert (E := N 0%nat). cbn in E. f_equal; [congruence|apply IH; intro i; apply (N (S i))].
Qed.

(** Windows of size zero are refused, whatever the grid. *)
Theorem C128_windows : forall tricube xa ya x_angle nz nu nx ny vt g2 g3 g4 num hw, (nx < 1 \/ ny < 1) ->
  exists w,
  (forall r, loess2 tricube xa ya x_angle nx ny vt g2 num hw r <-> r = Throw w) /\
  (forall r, loess3 tricube xa ya x_angle nz nx ny vt g3 num hw r <-> r = Throw w) /\
  (forall r, loess4 tricube xa ya x_angle nz nu nx ny vt g4 num hw r <-> r = Throw w).
Proof.
  intros tricube xa ya a nz nu nx ny vt g2 g3 g4 num hw H. destruct (Z.lt_ge_cases nx 1) as [L|L].
  - exists "nx must be >= 1"%string.
    repeat split; first [intros ->; constructor; lia | intro R; inversion R; try lia; reflexivity].
  - assert (M : ny < 1) by lia. exists "ny must be >= 1"%string.
    repeat split; first [intros ->; constructor; lia | intro R; inversion R; try lia; reflexivity].
Qed.
Print Assumptions C128_windows.

Section Cells.
  Variable tricube : Q -> Q.
  Variables (xa ya : list Q) (a : bool) (nx ny : Z) (vt : value_type).
  Hypothesis Tn : forall d, (0 <= tricube d)%Q.
  Hypothesis Hs : sizes_ok a xa ya.
  Hypothesis X : 1 <= nx.
  Hypothesis Y : 1 <= ny.

  Lemma cell_value g ix iy : 0 <= ix < zlen xa -> 0 <= iy < zlen ya -> forall p, prepare xa a nx ix = Ok p ->
    exists v, cell tricube xa ya a nx ny vt g p ix iy = Ok v /\ loess tricube xa ya a nx ny g vt ix iy = Ok v.
  Proof.
    intros Ix Iy p P. destruct (C61_loess tricube xa ya a nx ny g vt ix iy Tn Hs X Y Ix Iy) as (v & E & _). exists v. split; [|exact E].
    rewrite loess_prepare in E by assumption. rewrite P in E. exact E.
  Qed.
  Lemma prepare_ok ix : 0 <= ix < zlen xa -> exists p, prepare xa a nx ix = Ok p.
  Proof.
    intro Ix. destruct Hs as [Sy _]. destruct (C61_loess tricube xa ya a nx ny (fun _ _ => None) vt ix 0 Tn Hs X Y Ix ltac:(lia)) as (v & E & _).
    rewrite loess_prepare in E by assumption. destruct (prepare xa a nx ix) as [p| |]; [exists p; reflexivity|discriminate|discriminate].
  Qed.
  Lemma row_value g ix : 0 <= ix < zlen xa ->
    exists row, (olet p := prepare xa a nx ix in oloop (cell tricube xa ya a nx ny vt g p ix) (zseq (zlen ya))) = Ok row /\ zlen row = zlen ya /\
      forall iy, 0 <= iy < zlen ya -> exists v, znth row iy = Some v /\ loess tricube xa ya a nx ny g vt ix iy = Ok v.
  Proof.
    intro Ix. destruct (prepare_ok ix Ix) as [p P]. rewrite P. cbn [obind].
    destruct (oloop_zseq (cell tricube xa ya a nx ny vt g p ix) (zlen ya)) as (row & E & L & V).
    { intros iy Iy. destruct (cell_value g ix iy Ix Iy p P) as (v & E & _). exists v. exact E. }
    exists row. split; [exact E|]. split; [rewrite L; unfold zlen; lia|]. intros iy Iy. destruct (V iy Iy) as (v & N & Ev). exists v. split; [exact N|].
    destruct (cell_value g ix iy Ix Iy p P) as (v' & E1 & E2). congruence.
  Qed.
  Lemma slice_value g iz : exists s, body3 tricube xa ya a nx ny vt g iz = Ok s /\ zlen s = zlen xa /\
    forall ix, 0 <= ix < zlen xa -> exists row, znth s ix = Some row /\ zlen row = zlen ya /\
      forall iy, 0 <= iy < zlen ya -> exists v, znth row iy = Some v /\ loess tricube xa ya a nx ny (fun i j => g i j iz) vt ix iy = Ok v.
  Proof.
    unfold body3. match goal with |- context [oloop ?f (zseq (zlen xa))] => destruct (oloop_zseq f (zlen xa)) as (s & E & L & V) end.
    { intros ix Ix. destruct (row_value (fun i j => g i j iz) ix Ix) as (row & E & _). exists row. exact E. }
    exists s. split; [exact E|]. split; [rewrite L; unfold zlen; lia|]. intros ix Ix. destruct (V ix Ix) as (row & N & Er). exists row. split; [exact N|].
    destruct (row_value (fun i j => g i j iz) ix Ix) as (row' & E' & L' & V'). cbv beta in Er. assert (row' = row) by congruence. subst row'. split; assumption.
  Qed.
  Lemma block_value nz g iu : 0 <= nz -> exists b, body4 tricube xa ya a nx ny vt nz g iu = Ok b /\ zlen b = zlen xa /\
    forall ix, 0 <= ix < zlen xa -> exists s, znth b ix = Some s /\ zlen s = zlen ya /\
      forall iy, 0 <= iy < zlen ya -> exists row, znth s iy = Some row /\ zlen row = nz /\
        forall iz, 0 <= iz < nz -> exists v, znth row iz = Some v /\ loess tricube xa ya a nx ny (fun i j => g i j iz iu) vt ix iy = Ok v.
  Proof.
    intro Hz.
    assert (In1 : forall ix iy p, 0 <= ix < zlen xa -> 0 <= iy < zlen ya -> prepare xa a nx ix = Ok p ->
      exists row, oloop (fun iz => cell tricube xa ya a nx ny vt (fun i j => g i j iz iu) p ix iy) (zseq nz) = Ok row /\ zlen row = nz /\
        forall iz, 0 <= iz < nz -> exists v, znth row iz = Some v /\ loess tricube xa ya a nx ny (fun i j => g i j iz iu) vt ix iy = Ok v).
    { intros ix iy p Ix Iy P. match goal with |- context [oloop ?f (zseq nz)] => destruct (oloop_zseq f nz) as (row & E & L & V) end.
      { intros iz Iz. destruct (cell_value (fun i j => g i j iz iu) ix iy Ix Iy p P) as (v & E & _). exists v. exact E. }
      exists row. split; [exact E|]. split; [lia|]. intros iz Iz. destruct (V iz Iz) as (v & N & Ev). exists v. split; [exact N|].
      destruct (cell_value (fun i j => g i j iz iu) ix iy Ix Iy p P) as (v' & E1 & E2). cbv beta in Ev. congruence. }
    assert (In2 : forall ix, 0 <= ix < zlen xa -> exists s,
      (olet p := prepare xa a nx ix in oloop (fun iy => oloop (fun iz => cell tricube xa ya a nx ny vt (fun i j => g i j iz iu) p ix iy) (zseq nz)) (zseq (zlen ya))) = Ok s /\
      zlen s = zlen ya /\ forall iy, 0 <= iy < zlen ya -> exists row, znth s iy = Some row /\ zlen row = nz /\
        forall iz, 0 <= iz < nz -> exists v, znth row iz = Some v /\ loess tricube xa ya a nx ny (fun i j => g i j iz iu) vt ix iy = Ok v).
    { intros ix Ix. destruct (prepare_ok ix Ix) as [p P]. rewrite P. cbn [obind].
      match goal with |- context [oloop ?f (zseq (zlen ya))] => destruct (oloop_zseq f (zlen ya)) as (s & E & L & V) end.
      { intros iy Iy. destruct (In1 ix iy p Ix Iy P) as (row & E & _). exists row. exact E. }
      exists s. split; [exact E|]. split; [rewrite L; unfold zlen; lia|]. intros iy Iy. destruct (V iy Iy) as (row & N & Er). exists row. split; [exact N|].
      destruct (In1 ix iy p Ix Iy P) as (row' & E' & R). cbv beta in Er. assert (row' = row) by congruence. subst row'. exact R. }
    unfold body4. match goal with |- context [oloop ?f (zseq (zlen xa))] => destruct (oloop_zseq f (zlen xa)) as (b & E & L & V) end.
    { intros ix Ix. destruct (In2 ix Ix) as (s & E & _). exists s. exact E. }
    exists b. split; [exact E|]. split; [rewrite L; unfold zlen; lia|]. intros ix Ix. destruct (V ix Ix) as (s & N & Es). exists s. split; [exact N|].
    destruct (In2 ix Ix) as (s' & E' & R). cbv beta in Es. assert (s' = s) by congruence. subst s'. exact R.
  Qed.
End Cells.

(** The result of the filter of a 2-D grid: whatever the number of threads and their schedule, every cell is
    written and is what the filter of C61 gives for this cell. *)
Theorem C128_grid2 : forall tricube xa ya x_angle nx ny vt g num hw,
  (forall d, (0 <= tricube d)%Q) -> sizes_ok x_angle xa ya -> 1 <= nx -> 1 <= ny -> usual num hw ->
  (exists r, loess2 tricube xa ya x_angle nx ny vt g num hw r) /\
  forall r, loess2 tricube xa ya x_angle nx ny vt g num hw r -> exists l, r = Ok l /\ zlen l = zlen xa /\
    forall ix iy, 0 <= ix < zlen xa -> 0 <= iy < zlen ya ->
      exists v, read2 l ix iy = Some v /\ loess tricube xa ya x_angle nx ny g vt ix iy = Ok v.
Proof.
  intros tricube xa ya a nx ny vt g num hw Tn Hs X Y U.
  destruct (filtered_values nx ny (body2 tricube xa ya a nx ny vt g) (zlen xa) num hw X Y ltac:(unfold zlen; lia) U) as [Ex V].
  { intros ix Ix. destruct (row_value tricube xa ya a nx ny vt Tn Hs X Y g ix Ix) as (row & E & _). exists row. exact E. }
  split; [exact Ex|]. intros r R. destruct (V r R) as (l & -> & L & W). exists l. split; [reflexivity|]. split; [exact L|].
  intros ix iy Ix Iy. destruct (W ix Ix) as (row & S & E). destruct (row_value tricube xa ya a nx ny vt Tn Hs X Y g ix Ix) as (row' & E' & _ & Vr).
  unfold body2 in E. assert (row' = row) by congruence. subst row'. destruct (Vr iy Iy) as (v & N & Lv). exists v. split; [|exact Lv].
  unfold read2. rewrite S. exact N.
Qed.
Print Assumptions C128_grid2.
(** A grid of three dimensions: the cell (ix, iy, iz) is what the filter of the slice iz gives for (ix, iy). *)
Theorem C128_grid3 : forall tricube xa ya x_angle nz nx ny vt g num hw,
  (forall d, (0 <= tricube d)%Q) -> sizes_ok x_angle xa ya -> 1 <= nx -> 1 <= ny -> 0 <= nz -> usual num hw ->
  (exists r, loess3 tricube xa ya x_angle nz nx ny vt g num hw r) /\
  forall r, loess3 tricube xa ya x_angle nz nx ny vt g num hw r -> exists l, r = Ok l /\ zlen l = nz /\
    forall ix iy iz, 0 <= ix < zlen xa -> 0 <= iy < zlen ya -> 0 <= iz < nz ->
      exists v, read3 l ix iy iz = Some v /\ loess tricube xa ya x_angle nx ny (fun i j => g i j iz) vt ix iy = Ok v.
Proof.
  intros tricube xa ya a nz nx ny vt g num hw Tn Hs X Y Hz U.
  destruct (filtered_values nx ny (body3 tricube xa ya a nx ny vt g) nz num hw X Y Hz U) as [Ex V].
  { intros iz Iz. destruct (slice_value tricube xa ya a nx ny vt Tn Hs X Y g iz) as (s & E & _). exists s. exact E. }
  split; [exact Ex|]. intros r R. destruct (V r R) as (l & -> & L & W). exists l. split; [reflexivity|]. split; [exact L|].
  intros ix iy iz Ix Iy Iz. destruct (W iz Iz) as (s & S & E). destruct (slice_value tricube xa ya a nx ny vt Tn Hs X Y g iz) as (s' & E' & _ & Vs).
  assert (s' = s) by congruence. subst s'. destruct (Vs ix Ix) as (row & N & _ & Vr). destruct (Vr iy Iy) as (v & N2 & Lv). exists v. split; [|exact Lv].
  unfold read3. rewrite S, N. exact N2.
Qed.
Print Assumptions C128_grid3.
(** A grid of four dimensions: the slices (iz, iu) are filtered independently. *)
Theorem C128_grid4 : forall tricube xa ya x_angle nz nu nx ny vt g num hw,
  (forall d, (0 <= tricube d)%Q) -> sizes_ok x_angle xa ya -> 1 <= nx -> 1 <= ny -> 0 <= nz -> 0 <= nu -> usual num hw ->
  (exists r, loess4 tricube xa ya x_angle nz nu nx ny vt g num hw r) /\
  forall r, loess4 tricube xa ya x_angle nz nu nx ny vt g num hw r -> exists l, r = Ok l /\ zlen l = nu /\
    forall ix iy iz iu, 0 <= ix < zlen xa -> 0 <= iy < zlen ya -> 0 <= iz < nz -> 0 <= iu < nu ->
      exists v, read4 l ix iy iz iu = Some v /\ loess tricube xa ya x_angle nx ny (fun i j => g i j iz iu) vt ix iy = Ok v.
Proof.
  intros tricube xa ya a nz nu nx ny vt g num hw Tn Hs X Y Hz Hu U.
  destruct (filtered_values nx ny (body4 tricube xa ya a nx ny vt nz g) nu num hw X Y Hu U) as [Ex V].
  { intros iu Iu. destruct (block_value tricube xa ya a nx ny vt Tn Hs X Y nz g iu Hz) as (s & E & _). exists s. exact E. }
  split; [exact Ex|]. intros r R. destruct (V r R) as (l & -> & L & W). exists l. split; [reflexivity|]. split; [exact L|].
  intros ix iy iz iu Ix Iy Iz Iu. destruct (W iu Iu) as (b & S & E). destruct (block_value tricube xa ya a nx ny vt Tn Hs X Y nz g iu Hz) as (b' & E' & _ & Vb).
  assert (b' = b) by congruence. subst b'. destruct (Vb ix Ix) as (s & N & _ & Vs). destruct (Vs iy Iy) as (row & N2 & _ & Vr). destruct (Vr iz Iz) as (v & N3 & Lv).
  exists v. split; [|exact Lv]. unfold read4. rewrite S, N, N2. exact N3.
Qed.
Print Assumptions C128_grid4.
(** Two calls that differ only by the number of threads (or by the machine) give the same array. *)
Theorem C128_threads : forall tricube xa ya x_angle nz nu nx ny vt g2 g3 g4 num hw num' hw',
  (forall d, (0 <= tricube d)%Q) -> sizes_ok x_angle xa ya -> 1 <= nx -> 1 <= ny -> 0 <= nz -> 0 <= nu -> usual num hw -> usual num' hw' ->
  (forall r r', loess2 tricube xa ya x_angle nx ny vt g2 num hw r -> loess2 tricube xa ya x_angle nx ny vt g2 num' hw' r' -> r = r') /\
  (forall r r', loess3 tricube xa ya x_angle nz nx ny vt g3 num hw r -> loess3 tricube xa ya x_angle nz nx ny vt g3 num' hw' r' -> r = r') /\
  (forall r r', loess4 tricube xa ya x_angle nz nu nx ny vt g4 num hw r -> loess4 tricube xa ya x_angle nz nu nx ny vt g4 num' hw' r' -> r = r').
Proof.
  intros tricube xa ya a nz nu nx ny vt g2 g3 g4 num hw num' hw' Tn Hs X Y Hz Hu U U'.
  repeat split; intros r r'; apply filtered_det; try assumption; try (unfold zlen; lia); intros i I.
  - destruct (row_value tricube xa ya a nx ny vt Tn Hs X Y g2 i I) as (v & E & _). exists v. exact E.
  - destruct (slice_value tricube xa ya a nx ny vt Tn Hs X Y g3 i) as (v & E & _). exists v. exact E.
  - destruct (block_value tricube xa ya a nx ny vt Tn Hs X Y nz g4 i Hz) as (v & E & _). exists v. exact E.
Qed.
Print Assumptions C128_threads.

(** The names of the types of values; without a name (or with an empty one) only undefined values are
    replaced; the case matters and every other name is refused. *)
Theorem C128_value_type : forall v t, py_value_type v = Ok t <->
  (t = Undefined /\ (v = None \/ v = Some ""%string \/ v = Some "undefined"%string)) \/
  (t = Defined /\ v = Some "defined"%string) \/ (t = All /\ v = Some "all"%string).
Proof.
  intros v t. unfold py_value_type. destruct v as [s|].
  2:{ cbn. split; [intro H; left; split; [congruence|left; reflexivity]|]. intros [[-> _]|[[_ H]|[_ H]]]; [reflexivity|discriminate|discriminate]. }
  destruct (String.eqb_spec s ""); [subst; cbn; split; [intro H; left; split; [congruence|right; left; reflexivity]|]; intros [[-> _]|[[_ H]|[_ H]]]; [reflexivity|discriminate|discriminate]|].
  destruct (String.eqb_spec s "undefined"); [subst; split; [intro H; left; split; [congruence|right; right; reflexivity]|]; intros [[-> _]|[[_ H]|[_ H]]]; [reflexivity|discriminate|discriminate]|].
  destruct (String.eqb_spec s "defined"); [subst; split; [intro H; right; left; split; [congruence|reflexivity]|]; intros [[_ [H|[H|H]]]|[[-> _]|[_ H]]]; try discriminate; reflexivity|].
  destruct (String.eqb_spec s "all"); [subst; split; [intro H; right; right; split; [congruence|reflexivity]|]; intros [[_ [H|[H|H]]]|[[_ H]|[-> _]]]; try discriminate; reflexivity|].
  split; [discriminate|]. intros [[_ [H|[H|H]]]|[[_ H]|[_ H]]]; congruence.
Qed.
Print Assumptions C128_value_type.

(** REFUTED: an axis Y of one value divides by zero as soon as a cell is processed. *)
Theorem C128_single_row_refuted : forall tricube xa y nx ny g num hw ix,
  2 <= zlen xa -> 1 <= nx -> 1 <= ny -> usual num hw -> 0 <= ix < zlen xa ->
  forall r, loess2 tricube xa [y] false nx ny All g num hw r -> exists l w, r = Ok l /\ stored l ix = Some (UB w).
Proof.
  intros tricube xa y nx ny g num hw ix Sx X Y U Ix r R.
  assert (B : forall i, 0 <= i < zlen xa -> exists w, body2 tricube xa [y] false nx ny All g i = UB w).
  { intros i I. unfold body2.
    assert (P : exists p, prepare xa false nx i = Ok p).
    { destruct (C61_loess (fun _ => 0%Q) xa [0%Q; 0%Q] false nx ny (fun _ _ => None) All i 0 (fun _ => Qle_refl 0) ltac:(split; [cbn; lia|exact Sx]) X Y I ltac:(cbn; lia)) as (v & E & _).
      rewrite loess_prepare in E by assumption. destruct (prepare xa false nx i) as [p| |]; [exists p; reflexivity|discriminate|discriminate]. }
    destruct P as [[[xf x0] x] P]. rewrite P. cbn [obind]. change (zseq (zlen [y])) with [0]. cbn [oloop].
    unfold cell. cbn [processed]. change (coordinate [y] 0) with (@Ok Q y). cbn [obind]. change (zlen [y]) with 1.
    unfold frame_index. destruct (Z.to_nat (ny * 2 + 1)) as [|n] eqn:K; [lia|]. cbn [seq map frame_list].
    unfold frame_one. change (Z.of_nat 0) with 0.
    replace (0 - Z.quot (ny * 2 + 1) 2 + 0) with (- ny).
    2:{ rewrite Z.quot_div_nonneg by lia. rewrite (Z.add_comm (ny * 2)), Z.div_add by lia. change (1 / 2) with 0. lia. }
    destruct (Z.ltb_spec (- ny) 0); [|lia]. cbn. eexists. reflexivity. }
  destruct R as [H|H1 H|l c _ _ E St F|w _ _ E]; try lia; [|destruct (dispatch_some (zlen xa) num hw U) as [l E']; congruence].
  destruct U as [Hn Hh].
  destruct (C34_result _ (guarded (body2 tricube xa [y] false nx ny All g)) (zlen xa) num hw l c ltac:(lia) Hn Hh E St F) as (vs & An & L & W).
  { intros i I. destruct (B i I) as [w Ew]. unfold guarded. rewrite Ew. eexists. reflexivity. }
  unfold answer in An. destruct (except c); [discriminate|]. assert (O : out c = map Some vs) by congruence. rewrite O.
  destruct (W ix Ix) as (v & N & Bv). destruct (B ix Ix) as [w Ew]. exists (map Some vs), w. split; [reflexivity|].
  unfold guarded in Bv. rewrite Ew in Bv. unfold stored, znth. destruct (Z.ltb_spec ix 0); [lia|]. rewrite nth_error_map, N. cbn. congruence.
Qed.
Print Assumptions C128_single_row_refuted.

(** Instance: two slices of a 3 x 3 grid; the undefined centre of the second one is filled from its own slice. *)
Example C128_ex : sizes_ok false [0; 1; 2]%Q [0; 1; 2]%Q /\ usual 2 8 /\
  (let g := fun i j k : Z => if ((i =? 1) && (j =? 1) && (k =? 1))%bool then None else Some (inject_Z (10 * k + i)) in
   exists r, loess3 stand_in [0; 1; 2]%Q [0; 1; 2]%Q false 2 2 2 Undefined g 2 8 r /\
     exists l v, r = Ok l /\ read3 l 1 1 1 = Some (Some v) /\ (v == 11)%Q /\ read3 l 1 1 0 = Some (Some (inject_Z 1))).
Proof.
  assert (Sz : sizes_ok false [0; 1; 2]%Q [0; 1; 2]%Q) by (split; vm_compute; intro H; discriminate H).
  assert (U : usual 2 8) by (split; lia). split; [exact Sz|]. split; [exact U|]. intro g.
  assert (Tn : forall d, (0 <= stand_in d)%Q).
  { intro d. unfold stand_in. destruct (Qle_bool d 1) eqn:E; [|lra]. apply Qle_bool_iff in E. assert (H : (0 <= 1 - d)%Q) by lra.
    apply Qmult_le_0_compat; [apply Qmult_le_0_compat|]; exact H. }
  destruct (C128_grid3 stand_in [0; 1; 2]%Q [0; 1; 2]%Q false 2 2 2 Undefined g 2 8 Tn Sz ltac:(lia) ltac:(lia) ltac:(lia) U) as [[r R] V].
  exists r. split; [exact R|]. destruct (V r R) as (l & -> & _ & C).
  destruct (C 1 1 1) as (v1 & R1 & L1); [cbn; lia|cbn; lia|lia|]. destruct (C 1 1 0) as (v0 & R0 & L0); [cbn; lia|cbn; lia|lia|].
  destruct v1 as [v1|]; [|exfalso; vm_compute in L1; discriminate].
  exists l, v1. split; [reflexivity|]. split; [exact R1|]. split.
  - revert L1. match goal with |- ?t = _ -> _ => let t' := eval vm_compute in t in replace t with t' by (vm_compute; reflexivity) end.
    intro L1. injection L1 as <-. reflexivity.
  - rewrite R0. f_equal. assert (E : loess stand_in [0; 1; 2]%Q [0; 1; 2]%Q false 2 2 (fun i j => g i j 0) Undefined 1 1 = Ok (Some (inject_Z 1))) by (vm_compute; reflexivity).
    congruence.
Qed.
