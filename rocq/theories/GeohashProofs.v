(** Bit-level facts about the geohash codec. *)
From Verif Require Import Base BaseProofs GeohashModel GeohashSpec.
From Coq Require Import Ascii.
Open Scope Z_scope.

Lemma mask64_bits : forall i, 0 <= i -> Z.testbit mask64 i = (i <? 64).
Proof.
  intros i Hi. change mask64 with (Z.ones 64).
  destruct (Z.ltb_spec i 64).
  - apply Z.ones_spec_low; lia.
  - apply Z.ones_spec_high; lia.
Qed.

Lemma shl64_bits : forall x k i, 0 <= k -> 0 <= i ->
  Z.testbit (shl64 x k) i = (i <? 64) && Z.testbit x (i - k).
Proof.
  intros. unfold shl64. rewrite Z.land_spec, mask64_bits, Z.shiftl_spec by lia.
  apply andb_comm.
Qed.

(** Functions of bits, evaluated case by case. *)
Definition fstep_up (k mask : Z) (f : Z -> bool) : Z -> bool :=
  fun i => if Z.testbit mask i then f i || (if i <? k then false else f (i - k)) else false.
Definition fstep_down (k mask : Z) (f : Z -> bool) : Z -> bool :=
  fun i => if Z.testbit mask i then f i || f (i + k) else false.

Lemma spread_step_bits : forall k mask r f, 0 <= k -> 0 <= mask < 2 ^ 64 ->
  (forall i, 0 <= i -> Z.testbit r i = f i) ->
  forall i, 0 <= i -> Z.testbit (spread_step k mask r) i = fstep_up k mask f i.
Proof.
  intros k mask r f Hk Hm H i Hi. unfold spread_step, fstep_up.
  rewrite Z.land_spec, Z.lor_spec, shl64_bits by lia. rewrite H by lia.
  destruct (Z.testbit mask i) eqn:E; [|apply andb_false_r]. rewrite andb_true_r.
  assert (i < 64).
  { destruct (Z_lt_ge_dec i 64); [assumption|]. exfalso.
    rewrite Z.bits_above_log2 in E; [discriminate|lia|].
    apply Z.log2_lt_pow2; [|apply Z.lt_le_trans with (2^64); [lia|apply Z.pow_le_mono_r; lia]].
    destruct (Z.eq_dec mask 0); [subst; rewrite Z.bits_0 in E; discriminate|lia]. }
  destruct (Z.ltb_spec i 64); [|lia].
  destruct (Z.ltb_spec i k).
  - rewrite Z.testbit_neg_r by lia. reflexivity.
  - rewrite H by lia. reflexivity.
Qed.

Lemma squash_step_bits : forall k mask r f, 0 <= k ->
  (forall i, 0 <= i -> Z.testbit r i = f i) ->
  forall i, 0 <= i -> Z.testbit (squash_step k mask r) i = fstep_down k mask f i.
Proof.
  intros k mask r f Hk H i Hi. unfold squash_step, fstep_down.
  rewrite Z.land_spec, Z.lor_spec, Z.shiftr_spec by lia. rewrite !H by lia.
  destruct (Z.testbit mask i); [apply andb_true_r|apply andb_false_r].
Qed.

Lemma all_below : forall (n : nat) (P : Z -> Prop),
  Forall P (zrange (Z.of_nat n)) -> forall i, 0 <= i < Z.of_nat n -> P i.
Proof.
  intros n P H i Hi. unfold zrange in H. rewrite Nat2Z.id in H.
  rewrite Forall_forall in H. apply H. apply in_map_iff.
  exists (Z.to_nat i). split; [lia|]. apply in_seq. lia.
Qed.

Lemma bits_high : forall x n i, 0 <= x < 2 ^ n -> 0 <= n -> n <= i -> Z.testbit x i = false.
Proof.
  intros x n i H Hn Hi. destruct (Z.eq_dec x 0); [subst; apply Z.bits_0|].
  apply Z.bits_above_log2; [lia|]. apply Z.log2_lt_pow2; [lia|].
  apply Z.lt_le_trans with (2 ^ n); [lia|]. apply Z.pow_le_mono_r; lia.
Qed.

Lemma range_of_bits : forall x n, 0 <= n -> 0 <= x ->
  (forall i, n <= i -> Z.testbit x i = false) -> x < 2 ^ n.
Proof.
  intros x n Hn Hx H. destruct (Z_lt_ge_dec x (2 ^ n)); [assumption|exfalso].
  assert (0 < 2 ^ n) by (apply Z.pow_pos_nonneg; lia).
  assert (Hl : n <= Z.log2 x) by (apply Z.log2_le_pow2; lia).
  pose proof (Z.bit_log2 x ltac:(lia)). rewrite H in H1 by lia. discriminate.
Qed.

Lemma land_nonneg_mask : forall x m, 0 <= m -> 0 <= Z.land x m.
Proof. intros. apply Z.land_nonneg. right; assumption. Qed.

Lemma spread_nonneg : forall x, 0 <= spread x.
Proof. intros. unfold spread. cbv zeta. apply land_nonneg_mask. lia. Qed.
Lemma squash_nonneg : forall x, 0 <= squash x.
Proof. intros. unfold squash. cbv zeta. apply land_nonneg_mask. lia. Qed.

Ltac bits_cases :=
  match goal with |- Forall _ ?l => let v := eval cbv in l in change l with v end;
  repeat (apply Forall_cons; [cbv; try match goal with |- context [?X ?k] => is_var X; destruct (X k) end; reflexivity|]);
  apply Forall_nil.

Definition fspread (f : Z -> bool) : Z -> bool :=
  fstep_up 1 0x5555555555555555 (fstep_up 2 0x3333333333333333
   (fstep_up 4 0x0F0F0F0F0F0F0F0F (fstep_up 8 0x00FF00FF00FF00FF
    (fstep_up 16 0x0000FFFF0000FFFF f)))).

Lemma fspread_spec : forall X : Z -> bool,
  Forall (fun i => fspread (fun j => if j <? 32 then X j else false) i
                   = (if Z.even i then X (i / 2) else false)) (zrange 64).
Proof. intros X. bits_cases. Qed.

(** Bit [2 j] of [spread x] is bit [j] of [x]; the others are null. *)
Lemma spread_bits : forall x i, 0 <= x < 2 ^ 32 -> 0 <= i ->
  Z.testbit (spread x) i = (i <? 64) && Z.even i && Z.testbit x (i / 2).
Proof.
  intros x i Hx Hi.
  assert (E : Z.testbit (spread x) i
              = fspread (fun j => if j <? 32 then Z.testbit x j else false) i).
  { unfold spread, fspread. cbv zeta.
    repeat (apply spread_step_bits; [lia|lia| |lia]; clear i Hi; intros i Hi).
    destruct (Z.ltb_spec i 32); [reflexivity|]. apply bits_high with 32; lia. }
  rewrite E. destruct (Z.ltb_spec i 64).
  - rewrite (all_below 64 _ (fspread_spec (Z.testbit x)) i) by (cbn; lia).
    cbn [andb]. destruct (Z.even i); reflexivity.
  - cbn [andb]. unfold fspread, fstep_up at 1. rewrite (bits_high _ 64) by lia. reflexivity.
Qed.

Definition fsquash (f : Z -> bool) : Z -> bool :=
  fstep_down 16 0x00000000FFFFFFFF (fstep_down 8 0x0000FFFF0000FFFF
   (fstep_down 4 0x00FF00FF00FF00FF (fstep_down 2 0x0F0F0F0F0F0F0F0F
    (fstep_down 1 0x3333333333333333
      (fun i => if Z.testbit 0x5555555555555555 i then f i else false))))).

Lemma fsquash_spec : forall X : Z -> bool,
  Forall (fun i => fsquash X i = X (2 * i)) (zrange 32).
Proof. intros X. bits_cases. Qed.

(** Bit [j] of [squash x] is bit [2 j] of [x]. *)
Lemma squash_bits : forall x i, 0 <= i ->
  Z.testbit (squash x) i = (i <? 32) && Z.testbit x (2 * i).
Proof.
  intros x i Hi.
  assert (E : Z.testbit (squash x) i = fsquash (Z.testbit x) i).
  { unfold squash, fsquash. cbv zeta.
    repeat (apply squash_step_bits; [lia| |lia]; clear i Hi; intros i Hi).
    rewrite Z.land_spec. destruct (Z.testbit 6148914691236517205 i);
      [apply andb_true_r|apply andb_false_r]. }
  rewrite E. destruct (Z.ltb_spec i 32).
  - rewrite (all_below 32 _ (fsquash_spec (Z.testbit x)) i) by (cbn; lia). reflexivity.
  - cbn [andb]. unfold fsquash, fstep_down at 1. rewrite (bits_high _ 32) by lia. reflexivity.
Qed.

Lemma spread_range : forall x, 0 <= x < 2 ^ 32 -> 0 <= spread x < 2 ^ 64.
Proof.
  intros x Hx. split; [apply spread_nonneg|]. apply range_of_bits; [lia|apply spread_nonneg|].
  intros i Hi. rewrite spread_bits by lia. destruct (Z.ltb_spec i 64); [lia|reflexivity].
Qed.

Lemma squash_range : forall x, 0 <= squash x < 2 ^ 32.
Proof.
  intros x. split; [apply squash_nonneg|]. apply range_of_bits; [lia|apply squash_nonneg|].
  intros i Hi. rewrite squash_bits by lia. destruct (Z.ltb_spec i 32); [lia|reflexivity].
Qed.

Lemma even_pred : forall i, Z.even (i - 1) = Z.odd i.
Proof. intros. replace (i - 1) with (Z.pred i) by lia. apply Z.even_pred. Qed.

Lemma interleave_bits : forall x y i, 0 <= x < 2 ^ 32 -> 0 <= y < 2 ^ 32 -> 0 <= i ->
  Z.testbit (interleave x y) i =
    (i <? 64) && (if Z.even i then Z.testbit x (i / 2) else Z.testbit y (i / 2)).
Proof.
  intros x y i Hx Hy Hi. unfold interleave.
  rewrite Z.lor_spec, shl64_bits, spread_bits by lia.
  destruct (Z.ltb_spec i 64); [|reflexivity]. cbn [andb].
  destruct (Z.eq_dec i 0) as [->|Hn].
  - cbn [Z.even andb]. rewrite (Z.testbit_neg_r _ (0 - 1)) by lia. apply orb_false_r.
  - rewrite spread_bits by lia. rewrite even_pred, <- Z.negb_even.
    destruct (Z.ltb_spec (i - 1) 64); [|lia]. cbn [andb].
    destruct (Z.even i) eqn:Ev; cbn [negb andb orb].
    + apply orb_false_r.
    + f_equal. assert (Z.odd i = true) by (rewrite <- Z.negb_even, Ev; reflexivity).
      apply Z.odd_spec in H1. destruct H1 as [m ->].
      replace (2 * m + 1 - 1) with (m * 2) by lia. rewrite Z.div_mul by lia.
      replace (2 * m + 1) with (1 + m * 2) by lia. rewrite Z.div_add by lia. reflexivity.
Qed.

Lemma interleave_range : forall x y, 0 <= x < 2 ^ 32 -> 0 <= y < 2 ^ 32 ->
  0 <= interleave x y < 2 ^ 64.
Proof.
  intros x y Hx Hy.
  assert (0 <= interleave x y).
  { unfold interleave. apply Z.lor_nonneg. split; [apply spread_nonneg|].
    apply land_nonneg_mask. unfold mask64. lia. }
  split; [assumption|]. apply range_of_bits; [lia|assumption|].
  intros i Hi. rewrite interleave_bits by lia. destruct (Z.ltb_spec i 64); [lia|reflexivity].
Qed.

Lemma bits_eq : forall x y, 0 <= x -> 0 <= y ->
  (forall i, 0 <= i -> Z.testbit x i = Z.testbit y i) -> x = y.
Proof. intros. apply Z.bits_inj'. assumption. Qed.

Lemma deinterleave_interleave : forall x y, 0 <= x < 2 ^ 32 -> 0 <= y < 2 ^ 32 ->
  deinterleave (interleave x y) = (x, y).
Proof.
  intros x y Hx Hy. unfold deinterleave. f_equal.
  - apply bits_eq; [apply squash_range|lia|]. intros i Hi.
    rewrite squash_bits, interleave_bits by lia. rewrite Z.even_mul. cbn [Z.even orb].
    rewrite (Z.mul_comm 2), Z.div_mul by lia.
    destruct (Z.ltb_spec i 32).
    + destruct (Z.ltb_spec (i * 2) 64); [reflexivity|lia].
    + rewrite (bits_high x 32) by lia. reflexivity.
  - apply bits_eq; [apply squash_range|lia|]. intros i Hi.
    rewrite squash_bits, Z.shiftr_spec, interleave_bits by lia.
    rewrite Z.even_add, Z.even_mul. cbn [Z.even orb eqb].
    rewrite (Z.mul_comm 2), Z.add_comm, Z.div_add by lia. cbn [Z.div].
    change (1 / 2) with 0. rewrite Z.add_0_l.
    destruct (Z.ltb_spec i 32).
    + destruct (Z.ltb_spec (1 + i * 2) 64); [reflexivity|lia].
    + rewrite (bits_high y 32) by lia. reflexivity.
Qed.

Lemma interleave_deinterleave : forall h, 0 <= h < 2 ^ 64 ->
  let (x, y) := deinterleave h in interleave x y = h.
Proof.
  intros h Hh. cbn [deinterleave]. unfold deinterleave.
  apply bits_eq; [apply interleave_range; apply squash_range|lia|]. intros i Hi.
  rewrite interleave_bits by (try apply squash_range; lia).
  destruct (Z.ltb_spec i 64).
  2: { rewrite (bits_high h 64) by lia. reflexivity. }
  cbn [andb]. rewrite !squash_bits, Z.shiftr_spec by (Z.div_mod_to_equations; lia).
  destruct (Z.ltb_spec (i / 2) 32); [|Z.div_mod_to_equations; lia]. cbn [andb].
  destruct (Z.even i) eqn:Ev.
  - apply Z.even_spec in Ev. destruct Ev as [m ->].
    rewrite (Z.mul_comm 2 m), Z.div_mul by lia. f_equal. lia.
  - assert (Ho : Z.odd i = true) by (rewrite <- Z.negb_even, Ev; reflexivity).
    apply Z.odd_spec in Ho. destruct Ho as [m ->]. f_equal.
    replace (2 * m + 1) with (1 + m * 2) by lia. rewrite Z.div_add by lia.
    change (1 / 2) with 0. lia.
Qed.

(* ------------------------------------------------------------------ *)
(** PDEP / PEXT with the alternating masks *)

Lemma alt_mask_even : forall j, 0 <= j < 32 -> Z.testbit 0x5555555555555555 (2 * j) = true.
Proof. intros j Hj. apply (all_below 32 (fun j => Z.testbit 0x5555555555555555 (2 * j) = true)); [bits_cases|cbn; lia]. Qed.
Lemma alt_mask_odd : forall j, 0 <= j < 32 -> Z.testbit 0x5555555555555555 (2 * j + 1) = false.
Proof. intros j Hj. apply (all_below 32 (fun j => Z.testbit 0x5555555555555555 (2 * j + 1) = false)); [bits_cases|cbn; lia]. Qed.
Lemma alt_mask2_even : forall j, 0 <= j < 32 -> Z.testbit 0xAAAAAAAAAAAAAAAA (2 * j) = false.
Proof. intros j Hj. apply (all_below 32 (fun j => Z.testbit 0xAAAAAAAAAAAAAAAA (2 * j) = false)); [bits_cases|cbn; lia]. Qed.
Lemma alt_mask2_odd : forall j, 0 <= j < 32 -> Z.testbit 0xAAAAAAAAAAAAAAAA (2 * j + 1) = true.
Proof. intros j Hj. apply (all_below 32 (fun j => Z.testbit 0xAAAAAAAAAAAAAAAA (2 * j + 1) = true)); [bits_cases|cbn; lia]. Qed.

Lemma setbit_if_bits : forall (b : bool) d m i, 0 <= m -> 0 <= i ->
  Z.testbit (if b then Z.setbit d m else d) i = (b && (m =? i)) || Z.testbit d i.
Proof.
  intros b d m i Hm Hi. destruct b; cbn [andb orb]; [|reflexivity].
  apply Z.setbit_eqb; lia.
Qed.

Lemma setbit_if_nonneg : forall (b : bool) d m, 0 <= d -> 0 <= m -> 0 <= (if b then Z.setbit d m else d).
Proof.
  intros b d m Hd Hm. destruct b; [|assumption]. unfold Z.setbit. apply Z.lor_nonneg.
  split; [assumption|]. rewrite Z.shiftl_1_l. apply Z.pow_nonneg. lia.
Qed.

Lemma pdep_loop_alt : forall n j src dest, 0 <= j -> j + Z.of_nat n = 32 -> 0 <= dest ->
  0 <= pdep_loop (2 * n) (2 * j) j src 0x5555555555555555 dest /\
  forall i, 0 <= i ->
  Z.testbit (pdep_loop (2 * n) (2 * j) j src 0x5555555555555555 dest) i
  = (Z.even i && (2 * j <=? i) && (i <? 64) && Z.testbit src (i / 2)) || Z.testbit dest i.
Proof.
  induction n as [|n IH]; intros j src dest Hj Hn Hd.
  - cbn [pdep_loop Nat.mul]. split; [assumption|]. intros i Hi.
    destruct (Z.leb_spec (2 * j) i); destruct (Z.ltb_spec i 64); try lia;
      rewrite ?andb_false_r, ?andb_false_l; cbn; rewrite ?andb_false_r; reflexivity.
  - replace (2 * S n)%nat with (S (S (2 * n)))%nat by lia. cbn [pdep_loop].
    rewrite alt_mask_even by lia. rewrite alt_mask_odd by lia.
    replace (2 * j + 1 + 1) with (2 * (j + 1)) by lia.
    destruct (IH (j + 1) src (if Z.testbit src j then Z.setbit dest (2 * j) else dest))
      as [H1 H2]; [lia|lia|apply setbit_if_nonneg; lia|].
    split; [assumption|]. intros i Hi. rewrite H2 by lia. rewrite setbit_if_bits by lia.
    rewrite orb_assoc. f_equal.
    destruct (Z.eqb_spec (2 * j) i) as [<-|Hne].
    + rewrite Z.even_mul. cbn [Z.even orb andb].
      destruct (Z.leb_spec (2 * (j + 1)) (2 * j)); [lia|]. cbn [andb orb].
      destruct (Z.leb_spec (2 * j) (2 * j)); [|lia].
      destruct (Z.ltb_spec (2 * j) 64); [|lia]. cbn [andb].
      rewrite (Z.mul_comm 2), Z.div_mul by lia. apply andb_true_r.
    + rewrite andb_false_r, orb_false_r.
      destruct (Z.even i) eqn:Ev; [|reflexivity]. cbn [andb]. f_equal. f_equal.
      apply Z.even_spec in Ev. destruct Ev as [m ->].
      destruct (Z.leb_spec (2 * (j + 1)) (2 * m)), (Z.leb_spec (2 * j) (2 * m)); try reflexivity; lia.
Qed.

Lemma pdepq_bits : forall src, 0 <= pdepq src 0x5555555555555555 /\
  forall i, 0 <= i ->
  Z.testbit (pdepq src 0x5555555555555555) i = (i <? 64) && Z.even i && Z.testbit src (i / 2).
Proof.
  intros src. destruct (pdep_loop_alt 32 0 src 0) as [H1 H2]; [lia|reflexivity|lia|].
  change (pdepq src 6148914691236517205) with (pdep_loop (2 * 32) (2 * 0) 0 src 0x5555555555555555 0).
  split; [assumption|]. intros i Hi. rewrite H2 by lia. rewrite Z.bits_0, orb_false_r.
  destruct (Z.leb_spec (2 * 0) i); [|lia]. rewrite andb_true_r. f_equal. apply andb_comm.
Qed.

(** PDEP agrees with [spread] of the low 32 bits of its operand. *)
Lemma pdepq_spread : forall src, pdepq src 0x5555555555555555 = spread (src mod 2 ^ 32).
Proof.
  intros src. destruct (pdepq_bits src) as [H1 H2].
  assert (Hr : 0 <= src mod 2 ^ 32 < 2 ^ 32) by (apply Z.mod_pos_bound; lia).
  apply bits_eq; [assumption|apply spread_nonneg|]. intros i Hi.
  rewrite H2, spread_bits by lia.
  destruct (Z.ltb_spec i 64); [|reflexivity]. cbn [andb]. f_equal.
  rewrite Z.mod_pow2_bits_low; [reflexivity|]. Z.div_mod_to_equations; lia.
Qed.

Lemma pext_loop_alt : forall (o : bool) mask n j src dest, 0 <= j -> j + Z.of_nat n = 32 -> 0 <= dest ->
  mask = (if o then 0xAAAAAAAAAAAAAAAA else 0x5555555555555555) ->
  0 <= pext_loop (2 * n) (2 * j) j src mask dest /\
  forall i, 0 <= i ->
  Z.testbit (pext_loop (2 * n) (2 * j) j src mask dest) i
  = ((j <=? i) && (i <? 32) && Z.testbit src (2 * i + Z.b2z o)) || Z.testbit dest i.
Proof.
  intros o mask. induction n as [|n IH]; intros j src dest Hj Hn Hd Hm.
  - cbn [pext_loop Nat.mul]. split; [assumption|]. intros i Hi.
    destruct (Z.leb_spec j i); destruct (Z.ltb_spec i 32); try lia; reflexivity.
  - replace (2 * S n)%nat with (S (S (2 * n)))%nat by lia. cbn [pext_loop].
    assert (E : forall dest', dest' = (if Z.testbit src (2 * j + Z.b2z o) then Z.setbit dest j else dest) ->
      0 <= pext_loop (2 * n) (2 * (j + 1)) (j + 1) src mask dest' /\
      forall i, 0 <= i ->
      Z.testbit (pext_loop (2 * n) (2 * (j + 1)) (j + 1) src mask dest') i
      = ((j <=? i) && (i <? 32) && Z.testbit src (2 * i + Z.b2z o)) || Z.testbit dest i).
    { intros dest' ->. destruct (IH (j + 1) src (if Z.testbit src (2 * j + Z.b2z o) then Z.setbit dest j else dest))
        as [H1 H2]; [lia|lia|apply setbit_if_nonneg; lia|assumption|].
      split; [assumption|]. intros i Hi. rewrite H2 by lia. rewrite setbit_if_bits by lia.
      rewrite orb_assoc. f_equal. destruct (Z.eqb_spec j i) as [<-|Hne].
      - destruct (Z.leb_spec (j + 1) j); [lia|]. destruct (Z.leb_spec j j); [|lia].
        destruct (Z.ltb_spec j 32); [|lia]. cbn [andb orb]. apply andb_true_r.
      - rewrite andb_false_r, orb_false_r. f_equal. f_equal.
        destruct (Z.leb_spec (j + 1) i), (Z.leb_spec j i); try reflexivity; lia. }
    destruct o; subst mask.
    + rewrite alt_mask2_even by lia. rewrite alt_mask2_odd by lia.
      replace (2 * j + 1 + 1) with (2 * (j + 1)) by lia. apply E. reflexivity.
    + rewrite alt_mask_even by lia. rewrite alt_mask_odd by lia.
      replace (2 * j + 1 + 1) with (2 * (j + 1)) by lia. apply E.
      cbn [Z.b2z]. rewrite Z.add_0_r. reflexivity.
Qed.

Lemma pextq_bits : forall (o : bool) mask src,
  mask = (if o then 0xAAAAAAAAAAAAAAAA else 0x5555555555555555) ->
  0 <= pextq src mask /\
  forall i, 0 <= i ->
    Z.testbit (pextq src mask) i = (i <? 32) && Z.testbit src (2 * i + Z.b2z o).
Proof.
  intros o mask src Hm. destruct (pext_loop_alt o mask 32 0 src 0) as [H1 H2]; [lia|reflexivity|lia|assumption|].
  change (pextq src mask) with (pext_loop (2 * 32) (2 * 0) 0 src mask 0).
  split; [assumption|]. intros i Hi. rewrite H2 by lia. rewrite Z.bits_0, orb_false_r.
  destruct (Z.leb_spec 0 i); [|lia]. reflexivity.
Qed.

Lemma u32_bits : forall x i, 0 <= i -> Z.testbit (u32 x) i = (i <? 32) && Z.testbit x i.
Proof.
  intros x i Hi. unfold u32. change 0xFFFFFFFF with (Z.ones 32). rewrite Z.land_spec.
  destruct (Z.ltb_spec i 32).
  - rewrite Z.ones_spec_low by lia. apply andb_true_r.
  - rewrite Z.ones_spec_high by lia. apply andb_false_r.
Qed.

(** Both ways of taking a code apart agree on every 64-bit word. *)
Lemma deinterleave_bmi2_eq : forall x, deinterleave_bmi2 x = deinterleave x.
Proof.
  intros x. unfold deinterleave_bmi2, deinterleave.
  destruct (pextq_bits false 0x5555555555555555 x eq_refl) as [A1 A2].
  destruct (pextq_bits true 0xAAAAAAAAAAAAAAAA x eq_refl) as [B1 B2].
  f_equal; (apply bits_eq; [apply land_nonneg_mask; lia|apply squash_range|]; intros i Hi).
  - rewrite u32_bits, A2, squash_bits by lia. cbn [Z.b2z]. rewrite Z.add_0_r.
    destruct (i <? 32); reflexivity.
  - rewrite u32_bits, B2, squash_bits, Z.shiftr_spec by lia. cbn [Z.b2z].
    destruct (i <? 32); reflexivity.
Qed.
