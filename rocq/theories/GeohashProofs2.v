(** Column and row numbers of a geohash cell, and their link with the bits of the
    code, with the cell obtained by bisection and with the codec. *)
From Verif Require Import Base BaseProofs GeohashModel GeohashSpec GeohashProofs.
Open Scope Z_scope.

(** Column (longitude) and row (latitude) of a code of [p] bits. *)
Fixpoint lonx (p : nat) (h : Z) : Z :=
  match p with
  | O => 0
  | S n => if Nat.even n then 2 * lonx n (h / 2) + Z.b2z (Z.odd h) else lonx n (h / 2)
  end.
Fixpoint latx (p : nat) (h : Z) : Z :=
  match p with
  | O => 0
  | S n => if Nat.even n then latx n (h / 2) else 2 * latx n (h / 2) + Z.b2z (Z.odd h)
  end.
Definition latb (p : Z) : Z := p / 2.
Definition lonb (p : Z) : Z := p - p / 2.

Lemma even_of_nat : forall n, Nat.even n = Z.even (Z.of_nat n).
Proof.
  induction n as [|n IH]; [reflexivity|].
  rewrite Nat.even_succ, <- Nat.negb_even, IH, Nat2Z.inj_succ, Z.even_succ, <- Z.negb_even.
  reflexivity.
Qed.

Lemma lat_lon_bits_succ : forall n,
  if Nat.even n
  then lonb (Z.of_nat (S n)) = lonb (Z.of_nat n) + 1 /\ latb (Z.of_nat (S n)) = latb (Z.of_nat n)
       /\ Z.of_nat n mod 2 = 0 /\ Z.of_nat (S n) mod 2 = 1
  else lonb (Z.of_nat (S n)) = lonb (Z.of_nat n) /\ latb (Z.of_nat (S n)) = latb (Z.of_nat n) + 1
       /\ Z.of_nat n mod 2 = 1 /\ Z.of_nat (S n) mod 2 = 0.
Proof.
  intros n. rewrite even_of_nat. unfold lonb, latb. rewrite Nat2Z.inj_succ.
  destruct (Z.even (Z.of_nat n)) eqn:E.
  - apply Z.even_spec in E. destruct E as [m E]. rewrite E. Z.div_mod_to_equations. lia.
  - assert (O : Z.odd (Z.of_nat n) = true) by (rewrite <- Z.negb_even, E; reflexivity).
    apply Z.odd_spec in O. destruct O as [m O]. rewrite O. Z.div_mod_to_equations. lia.
Qed.

Lemma bits_nonneg : forall p, 0 <= Z.of_nat p / 2 /\ 0 <= lonb (Z.of_nat p) /\ 0 <= latb (Z.of_nat p).
Proof. intros. unfold lonb, latb. Z.div_mod_to_equations. lia. Qed.

Lemma b2z_bounds : forall b, 0 <= Z.b2z b <= 1.
Proof. destruct b; cbn; lia. Qed.

Lemma lonx_range : forall p h, 0 <= lonx p h < 2 ^ lonb (Z.of_nat p).
Proof.
  induction p as [|n IH]; intros h; [cbn; lia|].
  pose proof (lat_lon_bits_succ n) as L. pose proof (bits_nonneg n). pose proof (b2z_bounds (Z.odd h)).
  cbn [lonx]. destruct (Nat.even n); destruct L as [-> _]; specialize (IH (h / 2)).
  - rewrite Z.pow_add_r by lia. change (2 ^ 1) with 2. lia.
  - lia.
Qed.
Lemma latx_range : forall p h, 0 <= latx p h < 2 ^ latb (Z.of_nat p).
Proof.
  induction p as [|n IH]; intros h; [cbn; lia|].
  pose proof (lat_lon_bits_succ n) as L. pose proof (bits_nonneg n). pose proof (b2z_bounds (Z.odd h)).
  cbn [latx]. destruct (Nat.even n); destruct L as [_ [-> _]]; specialize (IH (h / 2)).
  - lia.
  - rewrite Z.pow_add_r by lia. change (2 ^ 1) with 2. lia.
Qed.

Lemma bit_cons : forall a b i, 0 <= i ->
  Z.testbit (2 * a + Z.b2z b) i = if i =? 0 then b else Z.testbit a (i - 1).
Proof.
  intros a b i Hi. destruct (Z.eqb_spec i 0) as [->|H].
  - apply Z.testbit_0_r.
  - replace i with (Z.succ (i - 1)) at 1 by lia. apply Z.testbit_succ_r. lia.
Qed.

Lemma div2_bit : forall h i, 0 <= i -> Z.testbit (h / 2) i = Z.testbit h (i + 1).
Proof. intros. replace (h / 2) with (Z.shiftr h 1) by (rewrite Z.shiftr_div_pow2 by lia; reflexivity). apply Z.shiftr_spec. lia. Qed.

Lemma lonx_bits : forall p h i, 0 <= i ->
  Z.testbit (lonx p h) i =
  (i <? lonb (Z.of_nat p)) && Z.testbit h (2 * i + 1 - Z.of_nat p mod 2).
Proof.
  induction p as [|n IH]; intros h i Hi.
  - cbn [lonx]. rewrite Z.bits_0. change (lonb (Z.of_nat 0)) with 0.
    destruct (Z.ltb_spec i 0); [lia|reflexivity].
  - pose proof (lat_lon_bits_succ n) as L. pose proof (bits_nonneg n).
    cbn [lonx]. destruct (Nat.even n); destruct L as (E1 & _ & E3 & E4); rewrite E1, E4.
    + rewrite bit_cons by lia. destruct (Z.eqb_spec i 0) as [->|Hne].
      * destruct (Z.ltb_spec 0 (lonb (Z.of_nat n) + 1)); [|lia]. cbn [andb].
        change (2 * 0 + 1 - 1) with 0. symmetry. apply Z.bit0_odd.
      * rewrite IH by lia. rewrite E3, div2_bit by lia.
        replace (2 * (i - 1) + 1 - 0 + 1) with (2 * i + 1 - 1) by lia. f_equal.
        destruct (Z.ltb_spec (i - 1) (lonb (Z.of_nat n))), (Z.ltb_spec i (lonb (Z.of_nat n) + 1)); lia.
    + rewrite IH by lia. rewrite E3, div2_bit by lia. f_equal. f_equal. lia.
Qed.

Lemma latx_bits : forall p h i, 0 <= i ->
  Z.testbit (latx p h) i =
  (i <? latb (Z.of_nat p)) && Z.testbit h (2 * i + Z.of_nat p mod 2).
Proof.
  induction p as [|n IH]; intros h i Hi.
  - cbn [latx]. rewrite Z.bits_0. change (latb (Z.of_nat 0)) with 0.
    destruct (Z.ltb_spec i 0); [lia|reflexivity].
  - pose proof (lat_lon_bits_succ n) as L. pose proof (bits_nonneg n).
    cbn [latx]. destruct (Nat.even n); destruct L as (_ & E1 & E3 & E4); rewrite E1, E4.
    + rewrite IH by lia. rewrite E3, div2_bit by lia. f_equal. f_equal. lia.
    + rewrite bit_cons by lia. destruct (Z.eqb_spec i 0) as [->|Hne].
      * destruct (Z.ltb_spec 0 (latb (Z.of_nat n) + 1)); [|lia]. cbn [andb].
        change (2 * 0 + 0) with 0. symmetry. apply Z.bit0_odd.
      * rewrite IH by lia. rewrite E3, div2_bit by lia.
        replace (2 * (i - 1) + 1 + 1) with (2 * i + 0) by lia. f_equal.
        destruct (Z.ltb_spec (i - 1) (latb (Z.of_nat n))), (Z.ltb_spec i (latb (Z.of_nat n) + 1)); lia.
Qed.

Lemma code_split : forall h, h = 2 * (h / 2) + Z.b2z (Z.odd h).
Proof. intros. rewrite <- Z.bit0_odd. rewrite <- Z.div2_div. pose proof (Z.div2_odd h). rewrite Z.bit0_odd. assumption. Qed.

Lemma is_code_half : forall n h, is_code (Z.of_nat (S n)) h -> is_code (Z.of_nat n) (h / 2).
Proof.
  unfold is_code. intros n h H. rewrite Nat2Z.inj_succ, Z.pow_succ_r in H by lia.
  Z.div_mod_to_equations. lia.
Qed.

Lemma idx_inj : forall p h h', is_code (Z.of_nat p) h -> is_code (Z.of_nat p) h' ->
  lonx p h = lonx p h' -> latx p h = latx p h' -> h = h'.
Proof.
  induction p as [|n IH]; intros h h' H H' E1 E2.
  - unfold is_code in *. cbn in *. lia.
  - pose proof (is_code_half _ _ H) as H1. pose proof (is_code_half _ _ H') as H2.
    pose proof (b2z_bounds (Z.odd h)). pose proof (b2z_bounds (Z.odd h')).
    cbn [lonx latx] in E1, E2. rewrite (code_split h), (code_split h').
    destruct (Nat.even n).
    + assert (lonx n (h / 2) = lonx n (h' / 2) /\ Z.b2z (Z.odd h) = Z.b2z (Z.odd h')) as [A B] by lia.
      rewrite (IH _ _ H1 H2 A E2), B. reflexivity.
    + assert (latx n (h / 2) = latx n (h' / 2) /\ Z.b2z (Z.odd h) = Z.b2z (Z.odd h')) as [A B] by lia.
      rewrite (IH _ _ H1 H2 E1 A), B. reflexivity.
Qed.

Lemma idx_surj : forall p a b, 0 <= a < 2 ^ lonb (Z.of_nat p) -> 0 <= b < 2 ^ latb (Z.of_nat p) ->
  exists h, is_code (Z.of_nat p) h /\ lonx p h = a /\ latx p h = b.
Proof.
  induction p as [|n IH]; intros a b Ha Hb.
  - exists 0. unfold is_code. cbn in *. lia.
  - pose proof (lat_lon_bits_succ n) as L. pose proof (bits_nonneg n).
    assert (S : forall q c, 0 <= q -> is_code (Z.of_nat n) q ->
              is_code (Z.of_nat (S n)) (2 * q + Z.b2z c) /\ (2 * q + Z.b2z c) / 2 = q /\ Z.odd (2 * q + Z.b2z c) = c).
    { intros q c Hq Hc. split; [|split].
      - unfold is_code in *. rewrite Nat2Z.inj_succ, Z.pow_succ_r by lia. destruct c; cbn [Z.b2z]; lia.
      - destruct c; cbn [Z.b2z]; Z.div_mod_to_equations; lia.
      - rewrite Z.odd_add, Z.odd_mul. destruct c; reflexivity. }
    cbn [lonx latx]. destruct (Nat.even n) eqn:Ev; destruct L as (E1 & E2 & _ & _); rewrite E1 in Ha; rewrite E2 in Hb.
    + rewrite Z.pow_add_r in Ha by lia. change (2 ^ 1) with 2 in Ha.
      destruct (IH (a / 2) b) as (q & Hq & Q1 & Q2); [Z.div_mod_to_equations; lia|lia|].
      exists (2 * q + Z.b2z (Z.odd a)). destruct (S q (Z.odd a)) as (S1 & S2 & S3); [unfold is_code in Hq; lia|assumption|].
      rewrite S2, S3, Q1, Q2. split; [assumption|]. split; [|reflexivity]. symmetry. apply code_split.
    + rewrite Z.pow_add_r in Hb by lia. change (2 ^ 1) with 2 in Hb.
      destruct (IH a (b / 2)) as (q & Hq & Q1 & Q2); [lia|Z.div_mod_to_equations; lia|].
      exists (2 * q + Z.b2z (Z.odd b)). destruct (S q (Z.odd b)) as (S1 & S2 & S3); [unfold is_code in Hq; lia|assumption|].
      rewrite S2, S3, Q1, Q2. split; [assumption|]. split; [reflexivity|]. symmetry. apply code_split.
Qed.

(* ------------------------------------------------------------------ *)
(** The cell of a code from its column and row. *)

Lemma inject_pow_pos : forall n, 0 <= n -> (0 < inject_Z (2 ^ n))%Q.
Proof.
  intros. unfold Qlt, inject_Z; cbn. rewrite Z.mul_1_r. apply Z.pow_pos_nonneg; lia.
Qed.

Definition grid_cell (p a b : Z) : cell :=
  Cell (-180 + 360 * inject_Z a / inject_Z (2 ^ lonb p))
       (-180 + 360 * inject_Z (a + 1) / inject_Z (2 ^ lonb p))
       (-90 + 180 * inject_Z b / inject_Z (2 ^ latb p))
       (-90 + 180 * inject_Z (b + 1) / inject_Z (2 ^ latb p)).

Lemma inject_pow_succ : forall n, 0 <= n -> (inject_Z (2 ^ (n + 1)) == 2 * inject_Z (2 ^ n))%Q.
Proof.
  intros. rewrite Z.pow_add_r by lia. change (2 ^ 1) with 2. rewrite inject_Z_mult. ring.
Qed.

Lemma cell_of_grid : forall p h,
  same_cell (cell_of p h) (grid_cell (Z.of_nat p) (lonx p h) (latx p h)).
Proof.
  induction p as [|n IH]; intros h.
  - unfold same_cell. cbn. repeat split; reflexivity.
  - specialize (IH (h / 2)). destruct IH as (W & E & S & N).
    pose proof (lat_lon_bits_succ n) as L. pose proof (bits_nonneg n) as (_ & P1 & P2).
    pose proof (inject_pow_pos _ P1). pose proof (inject_pow_pos _ P2).
    unfold grid_cell in *. cbn [west east south north] in *.
    cbn [cell_of lonx latx]. destruct (Nat.even n); destruct L as (E1 & E2 & _ & _); rewrite E1, E2.
    + unfold split_lon. destruct (Z.odd h); unfold same_cell; cbn [west east south north Z.b2z];
        rewrite W, E, S, N; rewrite !inject_pow_succ by assumption;
        rewrite ?inject_Z_plus, ?inject_Z_mult; repeat split; field; lra.
    + unfold split_lat. destruct (Z.odd h); unfold same_cell; cbn [west east south north Z.b2z];
        rewrite W, E, S, N; rewrite !inject_pow_succ by assumption;
        rewrite ?inject_Z_plus, ?inject_Z_mult; repeat split; field; lra.
Qed.

(* ------------------------------------------------------------------ *)
(** Taking a shifted code apart gives its row and column, scaled to 32 bits. *)

Lemma shl64_range : forall x k, 0 <= shl64 x k < 2 ^ 64.
Proof.
  intros. assert (0 <= shl64 x k) by (apply land_nonneg_mask; unfold mask64; lia).
  split; [assumption|]. unfold shl64. change mask64 with (Z.ones 64).
  rewrite Z.land_ones by lia. apply Z.mod_pos_bound. lia.
Qed.

Lemma deinterleave_code : forall p h, (1 <= p <= 64)%nat ->
  deinterleave (shl64 h (64 - Z.of_nat p)) =
  (latx p h * 2 ^ (32 - latb (Z.of_nat p)), lonx p h * 2 ^ (32 - lonb (Z.of_nat p))).
Proof.
  intros p h Hp. unfold deinterleave.
  pose proof (latx_range p h). pose proof (lonx_range p h).
  assert (B : 0 <= latb (Z.of_nat p) <= 32 /\ 0 <= lonb (Z.of_nat p) <= 32 /\
              2 * latb (Z.of_nat p) + Z.of_nat p mod 2 = Z.of_nat p /\
              2 * lonb (Z.of_nat p) - Z.of_nat p mod 2 = Z.of_nat p /\ 0 <= Z.of_nat p mod 2 < 2).
  { unfold latb, lonb. Z.div_mod_to_equations. lia. }
  destruct B as (B1 & B2 & B3 & B4 & B5).
  assert (0 <= 2 ^ (32 - latb (Z.of_nat p))) by (apply Z.pow_nonneg; lia).
  assert (0 <= 2 ^ (32 - lonb (Z.of_nat p))) by (apply Z.pow_nonneg; lia).
  f_equal; (apply bits_eq; [apply squash_range|nia|]; intros i Hi).
  - rewrite squash_bits, shl64_bits by lia. rewrite <- Z.shiftl_mul_pow2 by lia.
    rewrite Z.shiftl_spec by lia.
    destruct (Z_lt_ge_dec i (32 - latb (Z.of_nat p))).
    + rewrite (Z.testbit_neg_r (latx p h)) by lia. rewrite (Z.testbit_neg_r h) by lia.
      rewrite !andb_false_r. reflexivity.
    + rewrite latx_bits by lia.
      replace (2 * (i - (32 - latb (Z.of_nat p))) + Z.of_nat p mod 2)
        with (2 * i - (64 - Z.of_nat p)) by lia.
      destruct (Z.ltb_spec i 32), (Z.ltb_spec (2 * i) 64),
        (Z.ltb_spec (i - (32 - latb (Z.of_nat p))) (latb (Z.of_nat p))); try lia; reflexivity.
  - rewrite squash_bits, Z.shiftr_spec, shl64_bits by lia. rewrite <- Z.shiftl_mul_pow2 by lia.
    rewrite Z.shiftl_spec by lia.
    destruct (Z_lt_ge_dec i (32 - lonb (Z.of_nat p))).
    + rewrite (Z.testbit_neg_r (lonx p h)) by lia. rewrite (Z.testbit_neg_r h) by lia.
      rewrite !andb_false_r. reflexivity.
    + rewrite lonx_bits by lia.
      replace (2 * (i - (32 - lonb (Z.of_nat p))) + 1 - Z.of_nat p mod 2)
        with (2 * i + 1 - (64 - Z.of_nat p)) by lia.
      destruct (Z.ltb_spec i 32), (Z.ltb_spec (2 * i + 1) 64),
        (Z.ltb_spec (i - (32 - lonb (Z.of_nat p))) (lonb (Z.of_nat p))); try lia; reflexivity.
Qed.

(** Truncating an interleaved word gives the code of the truncated coordinates. *)
Lemma code_of_interleave : forall p la lo, (1 <= p <= 64)%nat ->
  0 <= la < 2 ^ 32 -> 0 <= lo < 2 ^ 32 ->
  let h := Z.shiftr (interleave la lo) (64 - Z.of_nat p) in
  is_code (Z.of_nat p) h /\
  latx p h = la / 2 ^ (32 - latb (Z.of_nat p)) /\
  lonx p h = lo / 2 ^ (32 - lonb (Z.of_nat p)).
Proof.
  intros p la lo Hp Hla Hlo. cbv zeta.
  pose proof (interleave_range la lo Hla Hlo) as R.
  set (h := Z.shiftr (interleave la lo) (64 - Z.of_nat p)).
  assert (B : 0 <= latb (Z.of_nat p) <= 32 /\ 0 <= lonb (Z.of_nat p) <= 32 /\
              2 * latb (Z.of_nat p) + Z.of_nat p mod 2 = Z.of_nat p /\
              2 * lonb (Z.of_nat p) - Z.of_nat p mod 2 = Z.of_nat p /\ 0 <= Z.of_nat p mod 2 < 2).
  { unfold latb, lonb. Z.div_mod_to_equations. lia. }
  destruct B as (B1 & B2 & B3 & B4 & B5).
  assert (Hbit : forall i, 0 <= i -> Z.testbit h i =
     (i + (64 - Z.of_nat p) <? 64) && (if Z.even (i + (64 - Z.of_nat p)) then Z.testbit la ((i + (64 - Z.of_nat p)) / 2)
                    else Z.testbit lo ((i + (64 - Z.of_nat p)) / 2))).
  { intros i Hi. unfold h. rewrite Z.shiftr_spec by lia. apply interleave_bits; lia. }
  split; [|split].
  - assert (0 <= h) by (unfold h; apply Z.shiftr_nonneg; lia).
    split; [assumption|]. apply range_of_bits; [lia|assumption|]. intros i Hi. rewrite Hbit by lia.
    destruct (Z.ltb_spec (i + (64 - Z.of_nat p)) 64); [lia|reflexivity].
  - apply bits_eq; [apply latx_range|apply Z.div_pos; [lia|apply Z.pow_pos_nonneg; lia]|].
    intros i Hi. rewrite latx_bits by lia. rewrite <- Z.shiftr_div_pow2, Z.shiftr_spec by lia.
    rewrite Hbit by lia.
    replace (2 * i + Z.of_nat p mod 2 + (64 - Z.of_nat p)) with ((i + (32 - latb (Z.of_nat p))) * 2) by lia.
    rewrite Z.even_mul, Z.div_mul by lia. cbn [Z.even]. rewrite orb_true_r.
    destruct (Z.ltb_spec i (latb (Z.of_nat p))).
    + destruct (Z.ltb_spec ((i + (32 - latb (Z.of_nat p))) * 2) 64); [reflexivity|lia].
    + rewrite (bits_high la 32) by lia. reflexivity.
  - apply bits_eq; [apply lonx_range|apply Z.div_pos; [lia|apply Z.pow_pos_nonneg; lia]|].
    intros i Hi. rewrite lonx_bits by lia. rewrite <- Z.shiftr_div_pow2, Z.shiftr_spec by lia.
    rewrite Hbit by lia.
    replace (2 * i + 1 - Z.of_nat p mod 2 + (64 - Z.of_nat p)) with (1 + (i + (32 - lonb (Z.of_nat p))) * 2) by lia.
    rewrite Z.even_add, Z.even_mul, Z.div_add by lia. cbn [Z.even]. rewrite orb_true_r. cbn [eqb].
    change (1 / 2) with 0. rewrite Z.add_0_l.
    destruct (Z.ltb_spec i (lonb (Z.of_nat p))).
    + destruct (Z.ltb_spec (1 + (i + (32 - lonb (Z.of_nat p))) * 2) 64); [reflexivity|lia].
    + rewrite (bits_high lo 32) by lia. reflexivity.
Qed.
