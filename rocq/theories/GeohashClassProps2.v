(** Theorems about arrays of geohashes and their conversion to grids (C116). *)
From Verif Require Import Base BaseProofs MathModel MathProofs AxisModel GeohashModel GeohashSpec GeohashProofs GeohashProofs2
  GeohashProofs3 GeohashProofs4 GeohashProofs5 GeohashProofs6 GeohashProofs7 GeohashProofs8 GeohashClassModel GeohashProps
  GeohashClassProps UniformAxis GeohashClassProofs XarrayModel XarraySpec.
From Coq Require Import Ascii Sorted.
Open Scope Z_scope.

Definition center_lon (c : cell) : Q := ((west c + east c) / 2)%Q.
Definition center_lat (c : cell) : Q := ((south c + north c) / 2)%Q.

(** [x] increases strictly along the list. *)
Definition increasing (l : list Q) : Prop :=
  forall i j x y, (i < j)%nat -> nth_error l i = Some x -> nth_error l j = Some y -> (x < y)%Q.

Lemma uniform_nth_nat : forall l s d i x, uniform s d l -> nth_error l i = Some x -> (x == s + inject_Z (Z.of_nat i) * d)%Q.
Proof.
  intros l s d i x U H. apply (uniform_nth l s d (Z.of_nat i) x U). unfold znth.
  destruct (Z.ltb_spec (Z.of_nat i) 0); [lia|]. rewrite Nat2Z.id. exact H.
Qed.

Lemma uniform_increasing : forall l s d, (0 < d)%Q -> uniform s d l -> increasing l.
Proof.
  intros l s d D U i j x y L Hx Hy. rewrite (uniform_nth_nat _ _ _ _ _ U Hx), (uniform_nth_nat _ _ _ _ _ U Hy).
  assert (P : (inject_Z (Z.of_nat i) * d < inject_Z (Z.of_nat j) * d)%Q).
  { apply Qmult_lt_compat_r; [exact D|]. rewrite <- Zlt_Qlt. lia. }
  lra.
Qed.

Lemma oseq_map_ok : forall (A B : Type) (f : A -> outcome B) (R : B -> A -> Prop) l,
  (forall a, In a l -> exists b, f a = Ok b /\ R b a) -> exists bs, oseq (map f l) = Ok bs /\ Forall2 R bs l.
Proof.
  intros A B f R l. induction l as [|a l IH]; intro H; [exists []; split; [reflexivity|constructor]|].
  destruct (H a (or_introl eq_refl)) as (b & E & Rb). destruct IH as (bs & E' & F); [intros x I; apply H; right; exact I|].
  exists (b :: bs). cbn [map oseq]. rewrite E. cbn [obind]. rewrite E'. cbn [obind]. split; [reflexivity|]. constructor; assumption.
Qed.

Lemma oseq_idx : forall (A : Type) (f : A -> outcome Z) (g : Z -> Z) (R : A -> Z -> Prop) xs hs, Forall2 R xs hs ->
  (forall x h, In h hs -> R x h -> f x = Ok (g h)) -> oseq (map f xs) = Ok (map g hs).
Proof.
  intros A f g R xs hs F. induction F as [|x h xs hs E F IH]; intro H; [reflexivity|].
  cbn [map oseq]. rewrite (H x h (or_introl eq_refl) E). cbn [obind]. rewrite IH; [reflexivity|]. intros y k I. apply H. right. exact I.
Qed.

(** Every position encoded is its own code, and the positions decoded are within half a cell
    of the positions encoded (longitudes modulo 360 degrees). *)
Theorem C116_arrays : forall bmi2 lon lat n, (1 <= n <= 12)%nat -> length lon = length lat ->
  Forall (fun y => -90 <= y <= 90)%Q lat ->
  exists codes xs ys, str_encode_array bmi2 lon lat (Z.of_nat n) = Ok codes /\
    Forall2 (fun p c => ghc_make bmi2 (fst p) (snd p) (Z.of_nat n) = Ok c) (combine lon lat) codes /\
    str_decode_array bmi2 (Z.of_nat n) codes false = Ok (xs, ys) /\
    length xs = length lon /\ length ys = length lat /\
    forall i a b x y, nth_error lon i = Some a -> nth_error lat i = Some b -> nth_error xs i = Some x -> nth_error ys i = Some y ->
      exists k, (Qabs (x - (a + 360 * inject_Z k)) <= fst (error_with_precision (5 * Z.of_nat n)) / 2 /\
                 Qabs (y - b) <= snd (error_with_precision (5 * Z.of_nat n)) / 2)%Q.
Proof.
  intros bmi2 lon lat n Hn L Hlat.
  assert (G : exists hs, str_encode_array bmi2 lon lat (Z.of_nat n) = Ok (map (fun h => b32_encode h n) hs) /\
    Forall2 (fun p c => ghc_make bmi2 (fst p) (snd p) (Z.of_nat n) = Ok c) (combine lon lat) (map (fun h => b32_encode h n) hs) /\
    Forall (is_code (Z.of_nat (5 * n))) hs /\ length hs = length lon /\
    forall i a b h, nth_error lon i = Some a -> nth_error lat i = Some b -> nth_error hs i = Some h ->
      exists k, in_closed (cell_of (5 * n) h) (a + 360 * inject_Z k) b).
  { unfold str_encode_array. destruct (Z.ltb_spec 12 (Z.of_nat n)); [lia|]. unfold zlen. rewrite L, Z.eqb_refl. cbn [negb].
    revert lat L Hlat. induction lon as [|a lon IH]; intros [|b lat] L Hlat; try discriminate L.
    - exists []. repeat split; try constructor. intros i a b h Ha. destruct i; discriminate.
    - inversion Hlat as [|? ? Hb Hlat']; subst. destruct (IH lat ltac:(cbn in L; lia) Hlat') as (hs & E & F & C & Le & P).
      destruct (C115_position bmi2 a b n Hn Hb) as (t & h & k & Et & Lt & Rt & Ct & _ & _ & _ & In_ & _).
      assert (Tt : t = b32_encode h n) by (destruct (C26_decode t h ltac:(lia) Rt) as [_ X]; rewrite Lt in X; congruence).
      assert (Es : str_encode bmi2 (Point (normalize_angle a (-(180)) 360) b) (Z.of_nat n) = Ok (b32_encode h n)).
      { unfold ghc_make in Et. destruct (12 <? Z.of_nat n); [discriminate|]. rewrite <- Tt. exact Et. }
      exists (h :: hs). cbn [combine map oseq fst snd]. rewrite Es. cbn [obind]. rewrite E. cbn [obind]. split; [reflexivity|].
      split; [constructor; [cbn [fst snd]; rewrite <- Tt; exact Et|exact F]|].
      split; [constructor; [rewrite of_nat_5; exact Ct|exact C]|]. split; [cbn; lia|].
      intros [|i] a' b' h' Ha Hb' Hh; cbn [nth_error] in *; [|eapply P; eassumption].
      assert (a' = a) by congruence. assert (b' = b) by congruence. assert (h' = h) by congruence. subst. exists k. exact In_. }
  destruct G as (hs & E & F & C & Le & P). destruct (decode_codes bmi2 n hs Hn C) as (xs & ys & D & Fx & Fy).
  exists (map (fun h => b32_encode h n) hs), xs, ys. split; [exact E|]. split; [exact F|]. split; [exact D|].
  pose proof (Forall2_length_eq _ _ _ Fx) as Lx || assert (Lx : length xs = length hs) by (clear - Fx; induction Fx; cbn; congruence).
  assert (Ly : length ys = length hs) by (clear - Fy; induction Fy; cbn; congruence).
  split; [congruence|]. split; [congruence|]. intros i a b x y Ha Hb Hx Hy.
  assert (Hh : exists h, nth_error hs i = Some h).
  { destruct (nth_error hs i) eqn:N; [eauto|]. apply nth_error_None in N. assert (nth_error xs i <> None) by congruence.
    apply nth_error_Some in H. lia. }
  destruct Hh as (h & Hh). destruct (P i a b h Ha Hb Hh) as (k & I1 & I2 & I3 & I4). exists k.
  assert (X : (x == mid 180 (lonb (Z.of_nat (5 * n))) (lonx (5 * n) h))%Q).
  { clear - Fx Hx Hh. revert i Hx Hh. induction Fx; intros [|i] Hx Hh; try discriminate; cbn [nth_error] in *; [|eauto].
    assert (x0 = x) by congruence. assert (y = h) by congruence. subst. assumption. }
  assert (Y : (y == mid 90 (latb (Z.of_nat (5 * n))) (latx (5 * n) h))%Q).
  { clear - Fy Hy Hh. revert i Hy Hh. induction Fy; intros [|i] Hy Hh; try discriminate; cbn [nth_error] in *; [|eauto].
    assert (x = y) by congruence. assert (y0 = h) by congruence. subst. assumption. }
  destruct (center_mid (5 * n) h) as [M1 M2]. rewrite <- M1 in X. rewrite <- M2 in Y.
  destruct (errors_eq (5 * n) ltac:(lia)) as [E1 E2]. rewrite of_nat_5 in E1, E2.
  destruct (cell_of_edges (5 * n) h) as (W & Ea & So & No). cbn [west east south north] in *.
  pose proof (bits_nonneg (5 * n)) as (_ & B1 & B2). rewrite edge_succ in Ea by assumption. rewrite edge_succ in No by assumption.
  pose proof (inject_pow_pos _ B1) as P1. pose proof (inject_pow_pos _ B2) as P2.
  rewrite of_nat_5 in Ea, No, W, So, P1, P2.
  assert (D1 : (fst (error_with_precision (5 * Z.of_nat n)) == east (cell_of (5 * n) h) - west (cell_of (5 * n) h))%Q)
    by (rewrite E1, Ea, W; field; lra).
  assert (D2 : (snd (error_with_precision (5 * Z.of_nat n)) == north (cell_of (5 * n) h) - south (cell_of (5 * n) h))%Q)
    by (rewrite E2, No, So; field; lra).
  clear - D1 D2 X Y I1 I2 I3 I4. unfold Qdiv in *. change (/ 2)%Q with (1 # 2)%Q in *.
  set (kk := (360 * inject_Z k)%Q) in *. clearbody kk.
  split; apply Qabs_Qle_condition; split; lra.
Qed.
Print Assumptions C116_arrays.

(** [GeoHash.error_with_precision]: the extent of the cells of that precision. *)
Theorem C115_error : forall n h, (1 <= n <= 12)%nat -> 0 <= h < 2 ^ Z.of_nat (5 * n) ->
  exists dx dy, ghc_error_with_precision (Z.of_nat n) = Ok (dx, dy) /\
    (dx == east (cell_of (5 * n) h) - west (cell_of (5 * n) h))%Q /\
    (dy == north (cell_of (5 * n) h) - south (cell_of (5 * n) h))%Q.
Proof.
  intros n h Hn Hh. unfold ghc_error_with_precision. destruct (Z.ltb_spec 12 (Z.of_nat n)); [lia|].
  replace (Z.of_nat n * 5) with (5 * Z.of_nat n) by ring.
  exists (fst (error_with_precision (5 * Z.of_nat n))), (snd (error_with_precision (5 * Z.of_nat n))).
  split; [destruct (error_with_precision _); reflexivity|].
  destruct (errors_eq (5 * n) ltac:(lia)) as [E1 E2]. rewrite of_nat_5 in E1, E2.
  destruct (cell_of_edges (5 * n) h) as (W & Ea & So & No). cbn [west east south north] in *.
  pose proof (bits_nonneg (5 * n)) as (_ & B1 & B2). rewrite edge_succ in Ea by assumption. rewrite edge_succ in No by assumption.
  pose proof (inject_pow_pos _ B1) as P1. pose proof (inject_pow_pos _ B2) as P2.
  rewrite of_nat_5 in Ea, No, W, So, P1, P2.
  split; [rewrite E1, Ea, W|rewrite E2, No, So]; field; lra.
Qed.
Print Assumptions C115_error.

(** Codes of more than 12 characters, arrays of different sizes and precisions above 12 are refused. *)
Theorem C116_refused : forall bmi2,
  (forall n codes round, 12 < n -> exists w, str_decode_array bmi2 n codes round = Throw w) /\
  (forall n lon lat, 12 < n \/ length lon <> length lat -> exists w, str_encode_array bmi2 lon lat n = Throw w).
Proof.
  intro bmi2. split.
  - intros n codes round H. unfold str_decode_array. destruct (Z.ltb_spec 12 n); [eexists; reflexivity|lia].
  - intros n lon lat H. unfold str_encode_array. destruct (Z.ltb_spec 12 n); [eexists; reflexivity|].
    destruct (Z.eqb_spec (zlen lon) (zlen lat)) as [E|E]; [|eexists; reflexivity]. unfold zlen in E. lia.
Qed.
Print Assumptions C116_refused.

(** What [to_xarray] returns: a grid whose columns (rows) are the centres of all the cells of
    this precision from west to east (from south to north); the value of a cell is the last
    datum given for its code, or the initial value if there is none. *)
Theorem C116_to_xarray : forall bmi2 (V : Type) (init : V) n hashes data, (1 <= n <= 12)%nat -> length hashes = length data ->
  Forall (fun t => length t = n /\ exists h, reads_as t 0 h) hashes ->
  exists g, to_xarray bmi2 init (Z.of_nat n) hashes data = Ok g /\
    increasing (hg_lon g) /\ increasing (hg_lat g) /\
    length (hg_rows g) = length (hg_lat g) /\ Forall (fun r => length r = length (hg_lon g)) (hg_rows g) /\
    forall h, is_code (5 * Z.of_nat n) h ->
      exists i j x y, nth_error (hg_lon g) j = Some x /\ nth_error (hg_lat g) i = Some y /\
        (x == center_lon (cell_of (5 * n) h) /\ y == center_lat (cell_of (5 * n) h))%Q /\
        (forall k t d, nth_error hashes k = Some t -> nth_error data k = Some d -> reads_as t 0 h ->
           (forall k', (k < k')%nat -> nth_error hashes k' <> Some t) -> cell_value (hg_rows g) i j = Some d) /\
        ((forall t, In t hashes -> ~ reads_as t 0 h) -> cell_value (hg_rows g) i j = Some init).
Proof.
  intros bmi2 V init n hashes data Hn L F. set (p := (5 * n)%nat).
  pose proof (bits_nonneg p) as (_ & B1 & B2). destruct (bits_5 n Hn) as [G1 G2]. fold p in G1, G2.
  pose proof (pow_ge _ G2) as N2. pose proof (pow_ge (lonb (Z.of_nat p)) ltac:(lia)) as N1.
  set (nx := 2 ^ lonb (Z.of_nat p)) in *. set (ny := 2 ^ latb (Z.of_nat p)) in *.
  pose proof (inject_pow_pos _ B1) as P1. pose proof (inject_pow_pos _ B2) as P2. fold nx in P1. fold ny in P2.
  set (dx := (2 * 180 / inject_Z nx)%Q). set (dy := (2 * 90 / inject_Z ny)%Q).
  assert (Dx : (0 < dx)%Q) by (apply Qlt_shift_div_l; lra). assert (Dy : (0 < dy)%Q) by (apply Qlt_shift_div_l; lra).
  set (sx := mid 180 (lonb (Z.of_nat p)) 0). set (sy := mid 90 (latb (Z.of_nat p)) 0).
  (* the codes given *)
  assert (Hc : exists hs, hashes = map (fun h => b32_encode h n) hs /\ Forall (is_code (Z.of_nat p)) hs).
  { clear L. induction F as [|t hashes [Lt (h & R)] F IH]; [exists []; split; [reflexivity|constructor]|]. destruct IH as (hs & E & C).
    exists (h :: hs). destruct (C26_decode t h ltac:(lia) R) as [_ X]. rewrite Lt in X. cbn [map]. rewrite X, E. split; [reflexivity|].
    constructor; [|exact C]. apply reads_as_value in R. destruct R as [Vt ->]. subst p. rewrite <- Lt. apply text_code. exact Vt. }
  destruct Hc as (hs & Eh & C).
  unfold to_xarray. unfold zlen at 1 2. rewrite L, Z.eqb_refl. cbn [negb]. destruct (Z.ltb_spec 12 (Z.of_nat n)); [lia|].
  rewrite (earth_block bmi2 n Hn). fold p. fold nx. fold ny. cbn [obind].
  set (blk := block p 0 0 nx ny).
  assert (Cb : forall h, In h blk <-> is_code (Z.of_nat p) h) by (apply (block_codes n Hn)).
  destruct (decode_codes bmi2 n blk Hn) as (xs & ys & D & Fx & Fy); [apply Forall_forall; intros h; apply Cb|].
  rewrite D. cbn [obind].
  (* the axes *)
  assert (Ux : uniform sx dx (np_unique xs) /\ length (np_unique xs) = Z.to_nat nx).
  { destruct (np_unique_spec xs) as [S M]. apply sorted_uniform; [exact Dx|exact S|]. intro z. rewrite M.
    rewrite (Forall2_InQ (fun h => mid 180 (lonb (Z.of_nat p)) (lonx p h)) xs blk Fx z). split.
    - intros (h & _ & E). exists (lonx p h). split; [pose proof (lonx_range p h) as RR; fold nx in RR; lia|]. rewrite E. apply mid_lin. exact B1.
    - intros (i & R & E). destruct (code_at_ok p i 0) as (A & A1 & _); [fold nx; lia|fold ny; lia|].
      exists (code_at p i 0). split; [apply Cb; exact A|]. rewrite A1, E. symmetry. apply mid_lin. exact B1. }
  assert (Uy : uniform sy dy (np_unique ys) /\ length (np_unique ys) = Z.to_nat ny).
  { destruct (np_unique_spec ys) as [S M]. apply sorted_uniform; [exact Dy|exact S|]. intro z. rewrite M.
    rewrite (Forall2_InQ (fun h => mid 90 (latb (Z.of_nat p)) (latx p h)) ys blk Fy z). split.
    - intros (h & _ & E). exists (latx p h). split; [pose proof (latx_range p h) as RR; fold ny in RR; lia|]. rewrite E. apply mid_lin. exact B2.
    - intros (i & R & E). destruct (code_at_ok p 0 i) as (A & _ & A1); [fold nx; lia|fold ny; lia|].
      exists (code_at p 0 i). split; [apply Cb; exact A|]. rewrite A1, E. symmetry. apply mid_lin. exact B2. }
  destruct Ux as [Ux Lx]. destruct Uy as [Uy Ly].
  assert (Zx : zlen (np_unique xs) = nx) by (unfold zlen; lia). assert (Zy : zlen (np_unique ys) = ny) by (unfold zlen; lia).
  destruct (uniform_axis (np_unique xs) sx dx (1 # 1000000) true Dx ltac:(discriminate) Ux ltac:(lia)) as (ax & Eax & Sax & _ & (vx & Evx & Lvx & Uvx) & Fax).
  { rewrite Zx. assert (E : (inject_Z nx * dx == 360)%Q) by (unfold dx; field; lra). rewrite E. apply Qle_refl. }
  destruct (uniform_axis (np_unique ys) sy dy (1 # 1000000) false Dy ltac:(discriminate) Uy ltac:(lia)) as (ay & Eay & Say & _ & (vy & Evy & Lvy & Uvy) & Fay).
  { rewrite Zy. assert (E : (inject_Z ny * dy == 180)%Q) by (unfold dy; field; lra). rewrite E. discriminate. }
  rewrite Zx in *. rewrite Zy in *.
  rewrite Eax. cbn [obind]. rewrite Eay. cbn [obind]. rewrite Sax, Say.
  (* the indexes *)
  destruct (decode_codes bmi2 n hs Hn C) as (us & vs & D2 & Fu & Fv). rewrite Eh, D2. cbn [obind].
  rewrite (oseq_idx Q (fun y => find_nearest_index ay y false) (latx p) _ vs hs Fv).
  2:{ intros x h _ E. apply Fay; [pose proof (latx_range p h) as RR; fold ny in RR; lia|]. rewrite E. apply mid_lin. exact B2. }
  cbn [obind].
  rewrite (oseq_idx Q (fun y => find_nearest_index ax y false) (lonx p) _ us hs Fu).
  2:{ intros x h _ E. apply Fax; [pose proof (lonx_range p h) as RR; fold nx in RR; lia|]. rewrite E. apply mid_lin. exact B1. }
  cbn [obind].
  assert (Ln : length hs = length data) by (rewrite <- L, Eh, map_length; reflexivity).
  set (asg := combine (combine (map (latx p) hs) (map (lonx p) hs)) data).
  assert (Asg : forall k q, nth_error asg k = Some q -> exists h d, nth_error hs k = Some h /\ nth_error data k = Some d /\ q = (latx p h, lonx p h, d)).
  { unfold asg. clear. revert data. induction hs as [|h hs IH]; intros data k q H; [destruct k; discriminate|].
    destruct data as [|d data]; [destruct k; discriminate|]. destruct k as [|k]; cbn [map combine nth_error] in *; [exists h, d; repeat split; congruence|]. eapply IH; exact H. }
  assert (Asg2 : forall k h d, nth_error hs k = Some h -> nth_error data k = Some d -> nth_error asg k = Some (latx p h, lonx p h, d)).
  { unfold asg. clear. revert data. induction hs as [|h hs IH]; intros data k h' d H1 H2; [destruct k; discriminate|].
    destruct data as [|d' data]; [destruct k; discriminate|]. destruct k as [|k]; cbn [map combine nth_error] in *; [congruence|]. apply IH; assumption. }
  set (grid := repeat (repeat init (Z.to_nat nx)) (Z.to_nat ny)).
  assert (Sg : shape grid ny nx).
  { split; [unfold zlen, grid; rewrite repeat_length; lia|]. apply Forall_forall. intros r I. apply repeat_spec in I. subst r. unfold zlen. rewrite repeat_length. lia. }
  destruct (set_cells_ok V asg grid ny nx Sg) as (rows & Er & (Sr1 & Sr2) & Cells).
  { apply Forall_forall. intros q I. apply In_nth_error in I. destruct I as (k & Hk). destruct (Asg k q Hk) as (h & d & _ & _ & ->).
    cbn [fst snd]. pose proof (lonx_range p h) as RX. pose proof (latx_range p h) as RY. fold nx in RX. fold ny in RY. lia. }
  rewrite Er. cbn [obind]. unfold axis_values. rewrite Sax, Say, Evx. cbn [obind]. rewrite Evy. cbn [obind].
  eexists. split; [reflexivity|]. cbn [hg_lon hg_lat hg_rows].
  split; [apply (uniform_increasing _ sx dx); assumption|]. split; [apply (uniform_increasing _ sy dy); assumption|].
  split; [unfold zlen in *; lia|]. split; [eapply Forall_impl; [|exact Sr2]; intros r Hr; unfold zlen in *; lia|].
  intros h Ch. rewrite <- of_nat_5 in Ch. fold p in Ch.
  pose proof (lonx_range p h) as Rx. pose proof (latx_range p h) as Ry. fold nx in Rx. fold ny in Ry.
  exists (Z.to_nat (latx p h)), (Z.to_nat (lonx p h)).
  destruct (nth_error vx (Z.to_nat (lonx p h))) as [x|] eqn:Hx; [|apply nth_error_None in Hx; unfold zlen in *; lia].
  destruct (nth_error vy (Z.to_nat (latx p h))) as [y|] eqn:Hy; [|apply nth_error_None in Hy; unfold zlen in *; lia].
  exists x, y. split; [reflexivity|]. split; [reflexivity|]. split.
  { destruct (center_mid p h) as [M1 M2]. unfold center_lon, center_lat. rewrite M1, M2.
    rewrite (uniform_nth_nat _ _ _ _ _ Uvx Hx), (uniform_nth_nat _ _ _ _ _ Uvy Hy). rewrite !Z2Nat.id by lia.
    split; symmetry; apply mid_lin; assumption. }
  destruct (Cells (Z.to_nat (latx p h)) (Z.to_nat (lonx p h))) as [Cl1 Cl2].
  assert (Inj : forall g, In g hs -> Z.to_nat (latx p g) = Z.to_nat (latx p h) -> Z.to_nat (lonx p g) = Z.to_nat (lonx p h) -> g = h).
  { intros g Ig E1 E2. rewrite Forall_forall in C. pose proof (lonx_range p g). pose proof (latx_range p g).
    apply (idx_inj p); [apply C; exact Ig|exact Ch| |]; lia. }
  assert (Rd : forall g, is_code (Z.of_nat p) g -> reads_as (b32_encode g n) 0 g).
  { intros g Cg. unfold p in Cg. rewrite of_nat_5 in Cg. apply (C26_roundtrip n g ltac:(lia) Cg). }
  split.
  - intros k t d Hk Hd R Last.
    assert (Hg : exists g, nth_error hs k = Some g /\ t = b32_encode g n).
    { rewrite nth_error_map in Hk. destruct (nth_error hs k) as [g|]; [|discriminate]. exists g. split; [reflexivity|]. cbn in Hk. congruence. }
    destruct Hg as (g & Hg & Et).
    assert (g = h).
    { assert (Cg : is_code (Z.of_nat p) g) by (rewrite Forall_forall in C; apply C; eapply nth_error_In; exact Hg).
      pose proof (Rd g Cg) as Rg. rewrite <- Et in Rg. apply reads_as_value in R. apply reads_as_value in Rg. destruct R as [_ R]. destruct Rg as [_ Rg]. congruence. }
    subst g. apply (Cl1 k (latx p h) (lonx p h) d); [apply Asg2; assumption|reflexivity|reflexivity|].
    intros k' iy ix v Lt H' E1 E2. destruct (Asg k' _ H') as (g & d' & Hg' & _ & Eq).
    assert (iy = latx p g) by congruence. assert (ix = lonx p g) by congruence. subst iy ix.
    assert (g = h) by (apply Inj; [eapply nth_error_In; exact Hg'|exact E1|exact E2]). subst g.
    apply (Last k' Lt). rewrite nth_error_map, Hg'. cbn. congruence.
  - intro None_. rewrite Cl2.
    + unfold cell_value, grid. rewrite nth_error_repeat by lia. rewrite nth_error_repeat by lia. reflexivity.
    + intros k iy ix v H' E1 E2. destruct (Asg k _ H') as (g & d' & Hg' & _ & Eq).
      assert (iy = latx p g) by congruence. assert (ix = lonx p g) by congruence. subst iy ix.
      assert (g = h) by (apply Inj; [eapply nth_error_In; exact Hg'|exact E1|exact E2]). subst g.
      apply (None_ (b32_encode h n)); [apply in_map_iff; exists h; split; [reflexivity|eapply nth_error_In; exact Hg']|].
      apply Rd. exact Ch.
Qed.
Print Assumptions C116_to_xarray.

Example C116_ex :
  str_encode_array true [350; -5603 # 1000]%Q [10; 42605 # 1000]%Q 3 = Ok [list_ascii_of_string "ecb"; list_ascii_of_string "ezs"] /\
  exists g, to_xarray true 0 1 [["e"%char]; ["s"%char]; ["e"%char]] [5; 7; 9] = Ok g /\
    hg_rows g = [[0;0;0;0;0;0;0;0]; [0;0;0;0;0;0;0;0]; [0;0;0;9;7;0;0;0]; [0;0;0;0;0;0;0;0]].
Proof. split; [vm_compute; reflexivity|]. eexists. split; [vm_compute; reflexivity|]. vm_compute. reflexivity. Qed.
