(** Lemmas for [GeoHash.grid] and [geohash.converter.to_xarray]. *)
From Verif Require Import Base BaseProofs MathModel MathProofs AxisModel GeohashModel GeohashSpec GeohashProofs GeohashProofs2
  GeohashProofs3 GeohashProofs4 GeohashProofs5 GeohashProofs6 GeohashProofs7 GeohashProofs8 GeohashClassModel GeohashProps
  GeohashClassProps UniformAxis.
From Coq Require Import Ascii Sorted.
Open Scope Z_scope.

(* ------------------------------------------------------------------ *)
(** numpy.unique *)

Definition InQ (x : Q) (l : list Q) : Prop := exists y, In y l /\ (y == x)%Q.

Lemma insert_unique_in : forall x l z, InQ z (insert_unique x l) <-> (x == z)%Q \/ InQ z l.
Proof.
  intros x l z. unfold InQ. induction l as [|y t IH].
  - cbn [insert_unique]. split.
    + intros (w & [<-|[]] & E). auto.
    + intros [E|(w & [] & _)]. exists x. split; [left; reflexivity|exact E].
  - cbn [insert_unique]. destruct (Qltb x y) eqn:L.
    + split.
      * intros (w & [<-|I] & E); [auto|]. right. exists w. auto.
      * intros [E|(w & I & E)]; [exists x; split; [left; reflexivity|exact E]|exists w; split; [right; exact I|exact E]].
    + destruct (Qeq_bool x y) eqn:Q.
      * apply Qeq_bool_eq in Q. split; [intro H; auto|]. intros [E|H]; [|exact H].
        exists y. split; [left; reflexivity|lra].
      * split.
        -- intros (w & [<-|I] & E); [right; exists y; split; [left; reflexivity|exact E]|].
           destruct (proj1 IH (ex_intro _ w (conj I E))) as [X|(w' & I' & E')]; [auto|]. right. exists w'. split; [right; exact I'|exact E'].
        -- intros [E|(w & [<-|I] & E)].
           ++ destruct (proj2 IH (or_introl E)) as (w & I & E'). exists w. split; [right; exact I|exact E'].
           ++ exists y. split; [left; reflexivity|exact E].
           ++ destruct (proj2 IH (or_intror (ex_intro _ w (conj I E)))) as (w' & I' & E'). exists w'. split; [right; exact I'|exact E'].
Qed.

Lemma insert_unique_sorted : forall x l, StronglySorted Qlt l -> StronglySorted Qlt (insert_unique x l).
Proof.
  intros x l S. induction S as [|y t S IH F]; [constructor; constructor|]. cbn [insert_unique].
  destruct (Qltb x y) eqn:L.
  - assert (H : (x < y)%Q) by (unfold Qltb in L; apply Qnot_le_lt; intro C; apply Qle_bool_iff in C; rewrite C in L; discriminate).
    constructor; [constructor; assumption|]. constructor; [exact H|]. eapply Forall_impl; [|exact F]. intros a A. lra.
  - destruct (Qeq_bool x y) eqn:Q; [constructor; assumption|].
    assert (H : (y < x)%Q).
    { unfold Qltb in L. apply negb_false_iff in L. apply Qle_bool_iff in L. apply Qle_lt_or_eq in L. destruct L as [L|L]; [exact L|].
      exfalso. assert (Qeq_bool x y = true) by (apply Qeq_eq_bool; lra). congruence. }
    constructor; [exact IH|]. apply Forall_forall. intros z Hz.
    destruct (proj1 (insert_unique_in x t z) (ex_intro _ z (conj Hz (Qeq_refl z)))) as [E|(w & I & E)]; [lra|].
    rewrite Forall_forall in F. specialize (F _ I). lra.
Qed.

Lemma np_unique_spec : forall l, StronglySorted Qlt (np_unique l) /\ forall z, InQ z (np_unique l) <-> InQ z l.
Proof.
  induction l as [|x l [S M]]; [split; [constructor|reflexivity]|]. cbn [np_unique fold_right]. split; [apply insert_unique_sorted; exact S|].
  intro z. rewrite insert_unique_in. fold (np_unique l). rewrite M. unfold InQ. split.
  - intros [E|(y & I & E)]; [exists x; split; [left; reflexivity|exact E]|exists y; split; [right; exact I|exact E]].
  - intros (y & [<-|I] & E); [auto|right; exists y; auto].
Qed.

Lemma sorted_uniform : forall N l s d, (0 < d)%Q -> StronglySorted Qlt l ->
  (forall x, InQ x l <-> exists i, 0 <= i < Z.of_nat N /\ (x == s + inject_Z i * d)%Q) ->
  uniform s d l /\ length l = N.
Proof.
  induction N as [|N IH]; intros l s d D S M.
  - destruct l as [|y t]; [split; [exact I|reflexivity]|]. exfalso.
    destruct (proj1 (M y)) as (i & R & _); [exists y; split; [left; reflexivity|reflexivity]|]. cbn in R. lia.
  - destruct l as [|y t].
    { exfalso. destruct (proj2 (M s)) as (w & [] & _). exists 0. split; [lia|]. change (inject_Z 0) with 0%Q. ring. }
    inversion S as [|? ? St F]; subst. rewrite Forall_forall in F.
    assert (E : (y == s)%Q).
    { destruct (proj1 (M y)) as (i & R & Ey); [exists y; split; [left; reflexivity|reflexivity]|].
      destruct (proj2 (M s)) as (w & I & Ew); [exists 0; split; [lia|change (inject_Z 0) with 0%Q; ring]|].
      assert (P : (0 <= inject_Z i * d)%Q) by (apply Qmult_le_0_compat; [change 0%Q with (inject_Z 0); rewrite <- Zle_Qle; lia|lra]).
      destruct I as [<-|I]; [lra|]. specialize (F _ I). lra. }
    destruct (IH t (s + d)%Q d D St) as [U L].
    + intro x. split.
      * intros (w & I & Ew). destruct (proj1 (M x)) as (i & R & Ex); [exists w; split; [right; exact I|exact Ew]|].
        exists (i - 1). assert (i <> 0). { intros ->. change (inject_Z 0) with 0%Q in Ex. specialize (F _ I). lra. }
        split; [lia|]. rewrite Ex. replace i with ((i - 1) + 1) at 1 by ring. rewrite inject_Z_plus. change (inject_Z 1) with 1%Q. ring.
      * intros (i & R & Ex). destruct (proj2 (M x)) as (w & I & Ew).
        { exists (i + 1). split; [lia|]. rewrite Ex, inject_Z_plus. change (inject_Z 1) with 1%Q. ring. }
        destruct I as [<-|I]; [|exists w; auto]. exfalso.
        assert (P : (0 <= inject_Z i * d)%Q) by (apply Qmult_le_0_compat; [change 0%Q with (inject_Z 0); rewrite <- Zle_Qle; lia|lra]). lra.
    + split; [split; [exact E|exact U]|]. cbn [length]. rewrite L. reflexivity.
Qed.

(* ------------------------------------------------------------------ *)
(** Decoding a list of codes *)

Lemma mid_lin : forall r n a, 0 <= n -> (mid r n a == mid r n 0 + inject_Z a * (2 * r / inject_Z (2 ^ n)))%Q.
Proof. intros r n a Hn. pose proof (inject_pow_pos n Hn). unfold mid, edge. change (inject_Z 0) with 0%Q. field. lra. Qed.

Lemma center_mid : forall p h, ((west (cell_of p h) + east (cell_of p h)) / 2 == mid 180 (lonb (Z.of_nat p)) (lonx p h) /\
  (south (cell_of p h) + north (cell_of p h)) / 2 == mid 90 (latb (Z.of_nat p)) (latx p h))%Q.
Proof.
  intros p h. pose proof (bits_nonneg p) as (_ & B1 & B2).
  destruct (cell_of_edges p h) as (W & Ea & S & N). cbn [west east south north] in *.
  pose proof (inject_pow_pos _ B1) as P1. pose proof (inject_pow_pos _ B2) as P2.
  rewrite W, Ea, S, N. rewrite !edge_succ by assumption. unfold mid. split; field; lra.
Qed.

Lemma decode_codes : forall bmi2 n hs, (1 <= n <= 12)%nat -> Forall (is_code (Z.of_nat (5 * n))) hs ->
  exists xs ys, str_decode_array bmi2 (Z.of_nat n) (map (fun h => b32_encode h n) hs) false = Ok (xs, ys) /\
    Forall2 (fun x h => (x == mid 180 (lonb (Z.of_nat (5 * n))) (lonx (5 * n) h))%Q) xs hs /\
    Forall2 (fun y h => (y == mid 90 (latb (Z.of_nat (5 * n))) (latx (5 * n) h))%Q) ys hs.
Proof.
  intros bmi2 n hs Hn F. unfold str_decode_array. destruct (Z.ltb_spec 12 (Z.of_nat n)); [lia|].
  assert (G : exists pts, oseq (map (fun c => str_decode bmi2 c false) (map (fun h => b32_encode h n) hs)) = Ok pts /\
    Forall2 (fun x h => (x == mid 180 (lonb (Z.of_nat (5 * n))) (lonx (5 * n) h))%Q) (map p_lon pts) hs /\
    Forall2 (fun y h => (y == mid 90 (latb (Z.of_nat (5 * n))) (latx (5 * n) h))%Q) (map p_lat pts) hs).
  { induction F as [|h hs C F IH]; [exists []; repeat split; constructor|]. destruct IH as (pts & E & A & B).
    rewrite of_nat_5 in C. destruct (C26_roundtrip n h ltac:(lia) C) as (T1 & T2 & _).
    destruct (center_ok bmi2 (b32_encode h n) h ltac:(lia) T2) as (p & Ep & _ & M1 & M2). rewrite T1 in M1, M2.
    assert (Ed : str_decode bmi2 (b32_encode h n) false = Ok p) by exact Ep.
    destruct (center_mid (5 * n) h) as [X1 X2]. exists (p :: pts). cbn [map oseq]. rewrite Ed. cbn [obind]. rewrite E. cbn [obind map].
    split; [reflexivity|]. split; (constructor; [|assumption]); [rewrite M1; exact X1|rewrite M2; exact X2]. }
  destruct G as (pts & E & A & B). exists (map p_lon pts), (map p_lat pts). rewrite E. cbn [obind]. auto.
Qed.

(** The whole earth. *)
Lemma bits_5 : forall n, (1 <= n <= 12)%nat -> 3 <= lonb (Z.of_nat (5 * n)) /\ 2 <= latb (Z.of_nat (5 * n)).
Proof. intros n H. unfold lonb, latb. Z.div_mod_to_equations. lia. Qed.

Lemma pow_ge : forall k, 2 <= k -> 4 <= 2 ^ k.
Proof. intros k H. change 4 with (2 ^ 2). apply Z.pow_le_mono_r; lia. Qed.

Lemma earth_block : forall bmi2 n, (1 <= n <= 12)%nat ->
  str_bounding_boxes bmi2 whole_earth (Z.of_nat n) =
  Ok (map (fun h => b32_encode h n) (block (5 * n) 0 0 (2 ^ lonb (Z.of_nat (5 * n))) (2 ^ latb (Z.of_nat (5 * n))))).
Proof.
  intros bmi2 n Hn. unfold str_bounding_boxes. replace (Z.of_nat n * 5) with (Z.of_nat (5 * n)) by lia. rewrite Nat2Z.id.
  assert (W : wf_box whole_earth).
  { unfold wf_box, in_range, whole_earth. cbn [p_lon p_lat min_corner max_corner]. repeat split; discriminate. }
  destruct (bits_5 n Hn) as [B1 B2]. pose proof (pow_ge _ B2). pose proof (pow_ge (lonb (Z.of_nat (5 * n))) ltac:(lia)).
  assert (Q1 : qidx (-180) 180 (lonb (Z.of_nat (5 * n))) = 0).
  { apply qidx_unique; [reflexivity|lia| | |lia]; unfold edge; pose proof (inject_pow_pos (lonb (Z.of_nat (5 * n))) ltac:(lia)) as P;
      change (inject_Z 0) with 0%Q; change (inject_Z (0 + 1)) with 1%Q.
    - assert (E : (- (180) + 2 * 180 * 0 / inject_Z (2 ^ lonb (Z.of_nat (5 * n))) == -180)%Q) by (field; lra). rewrite E. discriminate.
    - assert (0 < 2 * 180 * 1 / inject_Z (2 ^ lonb (Z.of_nat (5 * n))))%Q by (apply Qlt_shift_div_l; lra). lra. }
  assert (Q2 : qidx (-90) 90 (latb (Z.of_nat (5 * n))) = 0).
  { apply qidx_unique; [reflexivity|lia| | |lia]; unfold edge; pose proof (inject_pow_pos (latb (Z.of_nat (5 * n))) ltac:(lia)) as P;
      change (inject_Z 0) with 0%Q; change (inject_Z (0 + 1)) with 1%Q.
    - assert (E : (- (90) + 2 * 90 * 0 / inject_Z (2 ^ latb (Z.of_nat (5 * n))) == -90)%Q) by (field; lra). rewrite E. discriminate.
    - assert (0 < 2 * 90 * 1 / inject_Z (2 ^ latb (Z.of_nat (5 * n))))%Q by (apply Qlt_shift_div_l; lra). lra. }
  pose proof (qidx_top' 180 180 (lonb (Z.of_nat (5 * n))) (Qeq_refl _)) as Q3.
  pose proof (qidx_top' 90 90 (latb (Z.of_nat (5 * n))) (Qeq_refl _)) as Q4.
  destruct (bounding_boxes_block bmi2 whole_earth (5 * n) ltac:(lia) W) as [[[O _] _]|[_ E]].
  - unfold whole_earth in O. cbn [p_lon p_lat min_corner max_corner] in O. rewrite Q1, Q3 in O. lia.
  - rewrite E. cbn [obind]. do 2 f_equal. unfold ncols, nrows, whole_earth. cbn [p_lon p_lat min_corner max_corner].
    rewrite Q1, Q2, Q3, Q4. change (Qeq_bool 180 180) with true. change (Qeq_bool 90 90) with true. cbv iota. f_equal; ring.
Qed.

Lemma block_codes : forall n, (1 <= n <= 12)%nat -> forall h,
  In h (block (5 * n) 0 0 (2 ^ lonb (Z.of_nat (5 * n))) (2 ^ latb (Z.of_nat (5 * n)))) <-> is_code (Z.of_nat (5 * n)) h.
Proof.
  intros n Hn h. rewrite in_block by lia. pose proof (lonx_range (5 * n) h). pose proof (latx_range (5 * n) h). split; [tauto|]. intro C. split; [exact C|lia].
Qed.

Lemma Forall2_InQ : forall (f : Z -> Q) xs hs, Forall2 (fun x h => (x == f h)%Q) xs hs ->
  forall z, InQ z xs <-> exists h, In h hs /\ (z == f h)%Q.
Proof.
  intros f xs hs F. induction F as [|x h xs hs E F IH]; intro z.
  - split; [intros (y & [] & _)|intros (y & [] & _)].
  - split.
    + intros (y & [<-|I] & Ey); [exists h; split; [left; reflexivity|lra]|].
      destruct (proj1 (IH z)) as (g & Ig & Eg); [exists y; auto|]. exists g. split; [right; exact Ig|exact Eg].
    + intros (g & [<-|I] & Eg); [exists x; split; [left; reflexivity|lra]|].
      destruct (proj2 (IH z)) as (y & Iy & Ey); [exists g; auto|]. exists y. split; [right; exact Iy|exact Ey].
Qed.

(* ------------------------------------------------------------------ *)
(** Assignment of cells *)

Lemma set_nth_length : forall (A : Type) (l : list A) i a, 0 <= i < zlen l -> length (set_nth l i a) = length l.
Proof.
  intros A l i a R. unfold set_nth. destruct (Z.ltb_spec i (zlen l)); [|lia]. unfold zlen in *.
  rewrite app_length. cbn [length]. rewrite firstn_length, skipn_length. lia.
Qed.

Lemma set_nth_nth : forall (A : Type) (l : list A) i a k, 0 <= i < zlen l ->
  nth_error (set_nth l i a) k = if Nat.eqb k (Z.to_nat i) then Some a else nth_error l k.
Proof.
  intros A l i a k R. unfold set_nth. destruct (Z.ltb_spec i (zlen l)); [|lia]. unfold zlen in *.
  set (m := Z.to_nat i). assert (Hm : (m < length l)%nat) by lia. clearbody m. clear R H i. revert m k Hm.
  induction l as [|x l IH]; intros m k Hm; [cbn in Hm; lia|]. destruct m as [|m]; [destruct k; reflexivity|]. destruct k as [|k]; [reflexivity|].
  cbn [firstn skipn app nth_error Nat.eqb]. apply IH. cbn in Hm. lia.
Qed.

(** Value of a cell. *)
Definition cell_value {V : Type} (rows : list (list V)) (i j : nat) : option V :=
  match nth_error rows i with Some r => nth_error r j | None => None end.

Definition shape {V : Type} (rows : list (list V)) (ny nx : Z) : Prop :=
  zlen rows = ny /\ Forall (fun r => zlen r = nx) rows.

Lemma set_cell_ok : forall (V : Type) (rows : list (list V)) ny nx iy ix v, shape rows ny nx -> 0 <= iy < ny -> 0 <= ix < nx ->
  shape (set_cell rows iy ix v) ny nx /\
  forall i j, cell_value (set_cell rows iy ix v) i j =
    if (Nat.eqb i (Z.to_nat iy) && Nat.eqb j (Z.to_nat ix))%bool then Some v else cell_value rows i j.
Proof.
  intros V rows ny nx iy ix v [S1 S2] Ry Rx. rewrite Forall_forall in S2.
  assert (Hr : exists r, nth_error rows (Z.to_nat iy) = Some r).
  { destruct (nth_error rows (Z.to_nat iy)) eqn:E; [eauto|]. apply nth_error_None in E. unfold zlen in S1. lia. }
  destruct Hr as (r & Hr). assert (Zr : zlen r = nx) by (apply S2; eapply nth_error_In; exact Hr).
  assert (En : nth (Z.to_nat iy) rows [] = r) by (apply nth_error_nth; exact Hr).
  unfold set_cell. rewrite En. split.
  - split; [unfold zlen; rewrite set_nth_length by lia; exact S1|]. apply Forall_forall. intros q Hq.
    apply In_nth_error in Hq. destruct Hq as (k & Hk). rewrite set_nth_nth in Hk by lia.
    destruct (Nat.eqb k (Z.to_nat iy)); [assert (q = set_nth r ix v) by congruence; subst q; unfold zlen; rewrite set_nth_length by lia; exact Zr|].
    apply S2. eapply nth_error_In; exact Hk.
  - intros i j. unfold cell_value. rewrite set_nth_nth by lia. destruct (Nat.eqb_spec i (Z.to_nat iy)) as [->|Ne]; [|reflexivity].
    rewrite Hr. rewrite set_nth_nth by lia. destruct (Nat.eqb j (Z.to_nat ix)); reflexivity.
Qed.

(** The last assignment of a cell wins. *)
Lemma set_cells_ok : forall (V : Type) (l : list (Z * Z * V)) (rows : list (list V)) ny nx, shape rows ny nx ->
  Forall (fun q : Z * Z * V => 0 <= fst (fst q) < ny /\ 0 <= snd (fst q) < nx) l ->
  exists rows', set_cells ny nx rows l = Ok rows' /\ shape rows' ny nx /\
    forall i j, (forall k iy ix v, nth_error l k = Some (iy, ix, v) -> Z.to_nat iy = i -> Z.to_nat ix = j ->
                   (forall k' iy' ix' v', (k < k')%nat -> nth_error l k' = Some (iy', ix', v') -> Z.to_nat iy' = i -> Z.to_nat ix' = j -> False) ->
                   cell_value rows' i j = Some v) /\
                ((forall k iy ix v, nth_error l k = Some (iy, ix, v) -> Z.to_nat iy = i -> Z.to_nat ix = j -> False) ->
                   cell_value rows' i j = cell_value rows i j).
Proof.
  intros V. induction l as [|[[iy ix] v] l IH]; intros rows ny nx Sx F.
  - exists rows. split; [reflexivity|]. split; [exact Sx|]. intros i j. split; [|reflexivity].
    intros k iy ix v H. destruct k; discriminate.
  - inversion F as [|? ? [Ry Rx] F']; subst. cbn [fst snd] in *.
    destruct (set_cell_ok V rows ny nx iy ix v Sx Ry Rx) as [S' C].
    destruct (IH (set_cell rows iy ix v) ny nx S' F') as (rows' & E & Sh & P).
    exists rows'. split.
    { cbn [set_cells]. unfold wrap_index. destruct (Z.leb_spec (- ny) iy); [|lia]. destruct (Z.ltb_spec iy ny); [|lia].
      destruct (Z.ltb_spec iy 0); [lia|]. destruct (Z.leb_spec (- nx) ix); [|lia]. destruct (Z.ltb_spec ix nx); [|lia].
      destruct (Z.ltb_spec ix 0); [lia|]. cbn [andb obind]. exact E. }
    split; [exact Sh|]. intros i j. destruct (P i j) as [P1 P2]. split.
    + intros k iy' ix' v' H Hi Hj Last. destruct k as [|k].
      * cbn [nth_error] in H. assert (iy' = iy /\ ix' = ix /\ v' = v) as (-> & -> & ->) by (repeat split; congruence).
        rewrite P2; [rewrite C; rewrite <- Hi, <- Hj, !Nat.eqb_refl; reflexivity|].
        intros k iy2 ix2 v2 H2 Hi2 Hj2. apply (Last (S k) iy2 ix2 v2); [lia|exact H2|exact Hi2|exact Hj2].
      * apply (P1 k iy' ix' v' H Hi Hj). intros k' iy2 ix2 v2 Lt H2 Hi2 Hj2. apply (Last (S k') iy2 ix2 v2); [lia|exact H2|exact Hi2|exact Hj2].
    + intro None_. rewrite P2; [|intros k iy2 ix2 v2 H2; apply (None_ (S k) iy2 ix2 v2 H2)].
      rewrite C. destruct (Nat.eqb_spec i (Z.to_nat iy)) as [Ei|_]; [|reflexivity]. destruct (Nat.eqb_spec j (Z.to_nat ix)) as [Ej|_]; [|reflexivity].
      exfalso. apply (None_ 0%nat iy ix v eq_refl); auto.
Qed.
