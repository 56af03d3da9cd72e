(** Lemmas about FloatMultiModel.v. *)
From Coq Require Import ZArith Reals Lra Psatz.
From Flocq Require Import Core BinarySingleNaN.
From Verif Require Import Base FloatAxisModel FloatAxisProofs FloatAxisProps FloatGridModel FloatGridProofs FloatMultiModel.
Open Scope R_scope.

(** [t y0 + u y1 / (t + u)]. *)
Definition mixed (t u y0 y1 : b64) : b64 := b_plus (b_mult t y0) (b_div (b_mult u y1) (b_plus t u)).

Lemma mixed_ok : forall t u y0 y1 o Q, weight t (1 - o) 8 -> weight u o 8 -> finite y0 = true -> finite y1 = true ->
  Rabs (real y0) <= Q -> Rabs (real y1) <= Q -> Q <= bpow radix2 990 ->
  finite (mixed t u y0 y1) = true /\ Rabs (real (mixed t u y0 y1) - ((1 - o) * real y0 + o * real y1)) <= 48 * U * Q + 8 * tiny.
Proof.
  intros t u y0 y1 o Q WT WU F0 F1 B0 B1 LQ. pose proof U_pos as UP. pose proof tiny_pos as TP. pose proof tiny_U as TU.
  assert (US : U <= / 1000000) by (rewrite UR; lra).
  assert (Q0 : 0 <= Q) by (pose proof (Rabs_pos (real y0)); lra). assert (UQ : 0 <= U * Q) by (apply Rmult_le_pos; lra).
  assert (UQS : U * Q <= / 1000000 * Q) by (apply Rmult_le_compat_r; lra).
  destruct (term_ok _ y0 _ _ Q WT ltac:(lra) F0 B0 LQ) as (A0 & E0). destruct (term_ok _ y1 _ _ Q WU ltac:(lra) F1 B1 LQ) as (A1 & E1).
  destruct WT as (FT & BT & OT & ET). destruct WU as (FU & BU & OU & EU).
  assert (O0 : Rabs ((1 - o) * real y0) <= Q).
  { rewrite Rabs_mult, (Rabs_pos_eq (1 - o)) by lra. apply Rle_trans with (1 * Rabs (real y0)); [apply Rmult_le_compat_r; [apply Rabs_pos|lra]|lra]. }
  assert (O1 : Rabs (o * real y1) <= Q).
  { rewrite Rabs_mult, (Rabs_pos_eq o) by lra. apply Rle_trans with (1 * Rabs (real y1)); [apply Rmult_le_compat_r; [apply Rabs_pos|lra]|lra]. }
  (* the sum of the weights *)
  assert (SB : Rabs (real t + real u - 1) <= 16 * U).
  { replace (real t + real u - 1) with ((real t - (1 - o)) + (real u - o)) by ring. eapply Rle_trans; [apply Rabs_triang|]. lra. }
  assert (S2 : Rabs (real t + real u) <= 2) by (rewrite Rabs_pos_eq by lra; lra).
  destruct (plus_rnd t u FT FU) as (FS & ES). { eapply Rle_trans; [exact S2|]. change 2 with (bpow radix2 1). apply bpow_le. discriminate. }
  set (s := real (b_plus t u)) in *.
  assert (S1 : Rabs (s - 1) <= 20 * U).
  { rewrite ES. replace (rnd (real t + real u) - 1) with ((rnd (real t + real u) - (real t + real u)) + (real t + real u - 1)) by ring.
    eapply Rle_trans; [apply Rabs_triang|]. pose proof (rnd_error (real t + real u)). assert (U * Rabs (real t + real u) <= U * 2) by (apply Rmult_le_compat_l; lra). lra. }
  assert (SP : 0.99 <= s <= 1.01).
  { pose proof (Rle_abs (s - 1)). pose proof (Rle_abs (- (s - 1))). rewrite Rabs_Ropp in H0. lra. }
  set (v := real (b_mult u y1)) in *.
  assert (VB : Rabs v <= Q + (9 * (U * Q) + tiny)).
  { replace v with (o * real y1 + (v - o * real y1)) by ring. eapply Rle_trans; [apply Rabs_triang|]. lra. }
  assert (VS : Rabs (v / s - v) <= 21 * U * (Q + (9 * (U * Q) + tiny))).
  { apply (abs_scale s); [lra|]. replace (s * (v / s - v)) with (- (v * (s - 1))) by (field; lra). rewrite Rabs_Ropp, Rabs_mult, (Rabs_pos_eq s) by lra.
    apply Rle_trans with ((Q + (9 * (U * Q) + tiny)) * (20 * U)); [apply Rmult_le_compat; try apply Rabs_pos; assumption|].
    assert (0 <= U * (Q + (9 * (U * Q) + tiny))) by (apply Rmult_le_pos; lra).
    assert (K : 0.99 * (21 * U * (Q + (9 * (U * Q) + tiny))) <= s * (21 * U * (Q + (9 * (U * Q) + tiny)))) by (apply Rmult_le_compat_r; lra). lra. }
  assert (UU : U * (9 * (U * Q) + tiny) <= / 1000000 * (9 * (U * Q) + tiny)) by (apply Rmult_le_compat_r; lra).
  assert (VS' : Rabs (v / s - v) <= 22 * (U * Q) + tiny) by lra.
  assert (VSB : Rabs (v / s) <= Q + (32 * (U * Q) + 2 * tiny)).
  { replace (v / s) with (v + (v / s - v)) by ring. eapply Rle_trans; [apply Rabs_triang|]. lra. }
  assert (BIG : Rabs (v / s) <= bpow radix2 1000).
  { replace (bpow radix2 1000) with (1024 * bpow radix2 990) by (change 1024 with (bpow radix2 10); rewrite <- bpow_plus; reflexivity).
    assert (1 <= bpow radix2 990) by (change 1 with (bpow radix2 0); apply bpow_le; discriminate). lra. }
  destruct (div_rnd (b_mult u y1) (b_plus t u) A1) as (FD & ED). { fold s. lra. } { exact BIG. }
  fold v s in ED.
  assert (DE : Rabs (real (b_div (b_mult u y1) (b_plus t u)) - o * real y1) <= 34 * U * Q + 4 * tiny).
  { rewrite ED. replace (rnd (v / s) - o * real y1) with ((rnd (v / s) - v / s) + ((v / s - v) + (v - o * real y1))) by ring.
    eapply Rle_trans; [apply Rabs_triang|]. eapply Rle_trans; [apply Rplus_le_compat_l, Rabs_triang|]. pose proof (rnd_error (v / s)).
    assert (U * Rabs (v / s) <= U * (Q + (32 * (U * Q) + 2 * tiny))) by (apply Rmult_le_compat_l; lra).
    assert (U * (32 * (U * Q) + 2 * tiny) <= / 1000000 * (32 * (U * Q) + 2 * tiny)) by (apply Rmult_le_compat_r; lra). lra. }
  rewrite <- (Rmult_1_l tiny) in E0.
  destruct (sum_ok _ _ _ _ _ _ _ _ 1 Q A0 FD E0 DE) as (R1 & R2); try lra.
  split; [exact R1|]. eapply Rle_trans; [exact R2|]. rewrite !(Rmult_assoc _ U Q). apply Rplus_le_compat; [apply Rmult_le_compat_r; lra|lra].
Qed.

(** Exact when the weights are 1 and 0. *)
Lemma mixed_unit : forall t u y0 y1 b, finite t = true -> finite u = true -> finite y0 = true -> finite y1 = true ->
  unit_of (real t) (negb b) -> unit_of (real u) b ->
  finite (mixed t u y0 y1) = true /\ real (mixed t u y0 y1) = real (if b then y1 else y0).
Proof.
  intros t u y0 y1 b FT FU F0 F1 ET EU. destruct of_1 as (O1 & R1).
  destruct (mult_unit t y0 _ FT F0 ET) as (A0 & B0). destruct (mult_unit u y1 _ FU F1 EU) as (A1 & B1).
  destruct (plus_exact t u (b_of_Z 1) FT FU) as (FS & ES). { red in ET, EU. rewrite ET, EU, R1. destruct b; cbn [negb]; ring. }
  rewrite R1 in ES.
  assert (H := @Bdiv_correct 53 1024 b64_prec b64_emax mode_NE (b_mult u y1) (b_plus t u)). rewrite ES in H. specialize (H ltac:(lra)).
  cbn [round_mode] in H. unfold Rdiv in H. rewrite Rinv_1, Rmult_1_r, rnd_id, lt_max in H. destruct H as (E & F & _).
  fold (b_div (b_mult u y1) (b_plus t u)) in E, F. unfold mixed. destruct (plus_one (b_mult t y0) (b_div (b_mult u y1) (b_plus t u)) (if b then y1 else y0) (negb b) b A0) as (P1 & P2).
  { rewrite F. exact A1. } { destruct b; reflexivity. } { rewrite B0. destruct b; reflexivity. } { rewrite E, B1. destruct b; reflexivity. }
  split; [exact P1|]. rewrite P2. destruct b; reflexivity.
Qed.

(** ** The weights of [f_linear] *)
Definition share (x x0 x1 : b64) : b64 := b_div (b_minus x1 x) (b_minus x1 x0).
Lemma linear_mixed : forall x x0 x1 y0 y1, cell1 x x0 x1 ->
  f_linear x x0 x1 y0 y1 = mixed (share x x0 x1) (ratio x x0 x1) y0 y1.
Proof.
  intros x x0 x1 y0 y1 [FX F0 F1 LO HI BT]. destruct (minus_sign x1 x0 F1 F0) as (E & _). { apply bpow_le_900_1000. exact HI. }
  unfold f_linear. destruct (b_eqb (b_minus x1 x0) (b_of_Z 0)) eqn:Q; [|reflexivity]. exfalso. pose proof (proj1 E eq_refl) as H.
  rewrite H, Rminus_eq_0, Rabs_R0 in LO. pose proof (bpow_gt_0 radix2 (-900)). lra.
Qed.
Lemma between_swap : forall v u w, between v u w -> between w u v. Proof. unfold between. tauto. Qed.
Lemma share_ok : forall x x0 x1, cell1 x x0 x1 ->
  weight (share x x0 x1) (1 - (real x - real x0) / (real x1 - real x0)) 8 /\
  (real x = real x0 -> real (share x x0 x1) = 1) /\ (real x = real x1 -> real (share x x0 x1) = 0).
Proof.
  intros x x0 x1 C. pose proof (ratio_weight _ _ _ C) as (_ & _ & O & _). destruct C as [FX F0 F1 LO HI BT].
  pose proof (bpow_gt_0 radix2 (-900)) as BP. assert (DZ : real x1 - real x0 <> 0) by (intros Z; rewrite Z, Rabs_R0 in LO; lra).
  destruct (abs_between _ _ _ (between_swap _ _ _ BT)) as [AB SG].
  assert (AB' : Rabs (real x1 - real x) <= Rabs (real x1 - real x0)) by (rewrite (Rabs_minus_sym _ (real x)), (Rabs_minus_sym _ (real x0)); exact AB).
  destruct (minus_rnd x1 x0 F1 F0) as (Fd & Ed). { apply bpow_le_900_1000. exact HI. }
  destruct (minus_rnd x1 x F1 FX) as (Fn & En). { apply bpow_le_900_1000. lra. }
  destruct (quot_ok _ _ _ _ Fn En Ed LO AB') as (_ & A & B & D & E & G). { lra. }
  unfold share. split; [|split; intros H; [apply G|apply E]; lra].
  split; [exact A|]. split; [exact B|]. split; [lra|].
  replace (1 - (real x - real x0) / (real x1 - real x0)) with ((real x1 - real x) / (real x1 - real x0)) by (field; exact DZ). exact D.
Qed.

(** The exact linear interpolation. *)
Definition mix (x x0 x1 v0 v1 : R) : R := (v0 * (x1 - x) + v1 * (x - x0)) / (x1 - x0).
Lemma mix_weights : forall x x0 x1 v0 v1, x1 - x0 <> 0 -> mix x x0 x1 v0 v1 = (1 - (x - x0) / (x1 - x0)) * v0 + (x - x0) / (x1 - x0) * v1.
Proof. intros. unfold mix. field. assumption. Qed.
Lemma cell_nz : forall x x0 x1, cell1 x x0 x1 -> real x1 - real x0 <> 0.
Proof. intros x x0 x1 [_ _ _ LO _ _] Z. rewrite Z, Rabs_R0 in LO. pose proof (bpow_gt_0 radix2 (-900)). lra. Qed.
Lemma linear_close : forall x x0 x1 y0 y1 Q, cell1 x x0 x1 -> finite y0 = true -> finite y1 = true ->
  Rabs (real y0) <= Q -> Rabs (real y1) <= Q -> Q <= bpow radix2 990 ->
  finite (f_linear x x0 x1 y0 y1) = true /\
  Rabs (real (f_linear x x0 x1 y0 y1) - mix (real x) (real x0) (real x1) (real y0) (real y1)) <= 48 * U * Q + 8 * tiny.
Proof.
  intros x x0 x1 y0 y1 Q C F0 F1 B0 B1 LQ. rewrite (linear_mixed _ _ _ _ _ C), (mix_weights _ _ _ _ _ (cell_nz _ _ _ C)).
  apply mixed_ok; auto; [apply (share_ok _ _ _ C)|apply (ratio_weight _ _ _ C)].
Qed.
Lemma linear_node : forall x x0 x1 y0 y1 (b : bool), cell1 x x0 x1 -> finite y0 = true -> finite y1 = true -> real x = (if b then real x1 else real x0) ->
  finite (f_linear x x0 x1 y0 y1) = true /\ real (f_linear x x0 x1 y0 y1) = real (if b then y1 else y0).
Proof.
  intros x x0 x1 y0 y1 b C F0 F1 E. rewrite (linear_mixed _ _ _ _ _ C). destruct (share_ok _ _ _ C) as ((FT & _) & T1 & T0). destruct (ratio_ok _ _ _ C) as (FU & _ & _ & U0 & U1).
  apply mixed_unit; auto; red; destruct b; cbn [negb]; auto.
Qed.
(** Exact interpolations: bounded, and contracting. *)
Lemma mix_bound : forall x x0 x1 v0 v1 Q, cell1 x x0 x1 -> Rabs v0 <= Q -> Rabs v1 <= Q -> Rabs (mix (real x) (real x0) (real x1) v0 v1) <= Q.
Proof.
  intros x x0 x1 v0 v1 Q C B0 B1. rewrite (mix_weights _ _ _ _ _ (cell_nz _ _ _ C)). destruct (ratio_weight _ _ _ C) as (_ & _ & O & _). set (o := (real x - real x0) / (real x1 - real x0)) in *.
  eapply Rle_trans; [apply Rabs_triang|]. rewrite !Rabs_mult, (Rabs_pos_eq o), (Rabs_pos_eq (1 - o)) by lra.
  assert ((1 - o) * Rabs v0 <= (1 - o) * Q) by (apply Rmult_le_compat_l; lra). assert (o * Rabs v1 <= o * Q) by (apply Rmult_le_compat_l; lra). lra.
Qed.
Lemma mix_diff : forall x x0 x1 v0 v1 w0 w1 e, cell1 x x0 x1 -> Rabs (v0 - w0) <= e -> Rabs (v1 - w1) <= e ->
  Rabs (mix (real x) (real x0) (real x1) v0 v1 - mix (real x) (real x0) (real x1) w0 w1) <= e.
Proof.
  intros x x0 x1 v0 v1 w0 w1 e C B0 B1. replace (mix (real x) (real x0) (real x1) v0 v1 - mix (real x) (real x0) (real x1) w0 w1) with (mix (real x) (real x0) (real x1) (v0 - w0) (v1 - w1)).
  - apply mix_bound; assumption.
  - unfold mix. field. apply (cell_nz _ _ _ C).
Qed.
Lemma bilinear_mix : forall x y x0 y0 x1 y1 q00 q01 q10 q11, x1 - x0 <> 0 -> y1 - y0 <> 0 ->
  exact_bilinear x y x0 y0 x1 y1 q00 q01 q10 q11 = mix y y0 y1 (mix x x0 x1 q00 q10) (mix x x0 x1 q01 q11).
Proof. intros. unfold exact_bilinear, mix. field. auto. Qed.

(** One more linear interpolation on top of two results. *)
Lemma stack_close : forall x x0 x1 r0 r1 E0 E1 e Q, cell1 x x0 x1 -> finite r0 = true -> finite r1 = true ->
  Rabs (real r0 - E0) <= e -> Rabs (real r1 - E1) <= e -> Rabs E0 <= Q -> Rabs E1 <= Q -> Q + e <= bpow radix2 990 ->
  finite (f_linear x x0 x1 r0 r1) = true /\
  Rabs (real (f_linear x x0 x1 r0 r1) - mix (real x) (real x0) (real x1) E0 E1) <= e + 48 * U * (Q + e) + 8 * tiny.
Proof.
  intros x x0 x1 r0 r1 E0 E1 e Q C F0 F1 B0 B1 Q0 Q1 LQ.
  assert (R : forall r E, Rabs (real r - E) <= e -> Rabs E <= Q -> Rabs (real r) <= Q + e).
  { intros r E H1 H2. replace (real r) with (E + (real r - E)) by ring. eapply Rle_trans; [apply Rabs_triang|]. lra. }
  destruct (linear_close x x0 x1 r0 r1 (Q + e) C F0 F1 (R _ _ B0 Q0) (R _ _ B1 Q1) LQ) as (F & D). split; [exact F|].
  replace (real (f_linear x x0 x1 r0 r1) - mix (real x) (real x0) (real x1) E0 E1) with
    ((real (f_linear x x0 x1 r0 r1) - mix (real x) (real x0) (real x1) (real r0) (real r1)) + (mix (real x) (real x0) (real x1) (real r0) (real r1) - mix (real x) (real x0) (real x1) E0 E1)) by ring.
  eapply Rle_trans; [apply Rabs_triang|]. pose proof (mix_diff x x0 x1 _ _ _ _ e C B0 B1). lra.
Qed.
