(** Theorems about the window functions (C58). *)
From Verif Require Import Base WindowModel WindowProofs.
From Coq Require Import Reals Lra Lia Psatz.
Open Scope R_scope.

(** For six of the ten windows, asked for through the Python interface (a Gaussian needs a non-null
    sigma): for every distance and positive radius the weight is a number of [0, 1], null beyond the
    radius. *)
Theorem C58_windows_partial : forall w arg f d r, python_weight w arg = Ok f ->
  In w [Blackman; BlackmanHarris; Boxcar; Gaussian; Hamming; Nuttall] -> (w = Gaussian -> arg <> Some 0) ->
  0 < r -> 0 <= d -> exists v, f d r = Some v /\ 0 <= v <= 1 /\ (r < d -> v = 0).
Proof.
  intros w arg f d r E I G R D. unfold python_weight in E. destruct (check_arg w arg) eqn:C; [|discriminate]. injection E as <-.
  destruct (Rle_dec d r) as [L|L].
  - enough (exists v, weight w d r (arg_value arg) = Some v /\ 0 <= v <= 1) as (v & E & B) by (exists v; split; [exact E|split; [exact B|lra]]).
    assert (U : -1 <= uu d r <= 1) by apply u_bounds.
    destruct I as [<-|[<-|[<-|[<-|[<-|[<-|[]]]]]]]; cbn [weight].
    + eexists. split; [apply blackman_in; assumption|]. apply by_dec; [exact p_blackman_dec|unfold p_blackman; lra|unfold p_blackman; lra|exact U].
    + eexists. split; [apply harris_in; assumption|]. apply by_dec; [exact p_harris_dec|unfold p_harris; lra|unfold p_harris; lra|exact U].
    + exists 1. unfold boxcar. apply Rleb_true in L. rewrite L. split; [reflexivity|lra].
    + unfold gaussian. pose proof L as L'. apply Rleb_true in L'. rewrite L'. cbn [check_arg] in C. destruct arg as [a|]; [|discriminate]. cbn [arg_value].
      destruct (Reqb a 0) eqn:A; [apply Reqb_true in A; subst; exfalso; apply G; reflexivity|]. eexists. split; [reflexivity|]. split; [left; apply exp_pos|].
      apply Rle_trans with (exp 0); [|rewrite exp_0; lra]. assert (0 <= (d / a) ^ 2) by apply pow2_ge_0. destruct (Rle_lt_or_eq_dec (- (1 / 2) * (d / a) ^ 2) 0) as [K|K]; [lra|left; apply exp_increasing; exact K|rewrite K; lra].
    + eexists. split; [apply hamming_in; assumption|]. apply by_dec; [intros u v _ H _; apply p_hamming_dec; exact H|unfold p_hamming; lra|unfold p_hamming; lra|exact U].
    + eexists. split; [apply nuttall_in; assumption|]. apply p_nuttall_bounds. exact U.
  - exists 0. assert (F : Rleb d r = false) by (apply Rleb_false; lra). split; [|split; [lra|reflexivity]].
    destruct I as [<-|[<-|[<-|[<-|[<-|[<-|[]]]]]]]; cbn [weight]; unfold blackman, blackman_harris, boxcar, gaussian, hamming, nuttall; rewrite F; reflexivity.
Qed.
Print Assumptions C58_windows_partial.
Example C58_windows_ex : exists f, python_weight Gaussian (Some 2) = Ok f /\ 0 < 3 /\ 0 <= 1.
Proof. eexists. split; [reflexivity|lra]. Qed.

(** The two Parzen windows, up to the radius (both ends included). *)
Theorem C58_parzen_partial : forall w arg f d r, python_weight w arg = Ok f -> In w [Parzen; ParzenSWOT] ->
  0 < r -> 0 <= d <= r -> exists v, f d r = Some v /\ 0 <= v <= 1.
Proof.
  intros w arg f d r E I R D. unfold python_weight in E. destruct (check_arg w arg) eqn:C; [|discriminate]. injection E as <-.
  pose proof (frac d r R D) as T. destruct I as [<-|[<-|[]]]; cbn [weight].
  - assert (A : 0 <= arg_value arg).
    { destruct arg as [a|]; cbn [arg_value check_arg] in *; [|lra]. apply Bool.negb_true_iff, Rltb_false in C. exact C. }
    unfold parzen. rewrite rdiv_some by lra. cbn [rbind]. destruct (Rleb d ((2 * r + arg_value arg) / 4)) eqn:L; [eexists; split; [reflexivity|]; apply parzen_low; exact T|].
    apply Rleb_false in L. assert (H : 1 / 2 <= d / r).
    { apply (Rmult_le_reg_r r); [exact R|]. unfold Rdiv at 2. rewrite Rmult_assoc, Rinv_l by lra. lra. }
    assert (S : Rltb ((2 * r + arg_value arg) / 4) d = true) by (apply Rltb_true; lra). rewrite S, Bool.orb_true_r. eexists. split; [reflexivity|]. apply cube_bounds. lra.
  - unfold parzen_swot. rewrite rdiv_some by lra. cbn [rbind]. replace (2 * d / (2 * r)) with (d / r) by (field; lra).
    destruct (Rleb d (2 * r / 4)) eqn:L; [eexists; split; [reflexivity|]; replace (1 - 6 * (d / r) ^ 2 + 6 * (d / r) ^ 3) with (1 - 6 * (d / r) ^ 2 * (1 - d / r)) by ring; apply parzen_low; exact T|].
    apply Rleb_false in L. assert (H : 1 / 2 <= d / r).
    { apply (Rmult_le_reg_r r); [exact R|]. unfold Rdiv at 2. rewrite Rmult_assoc, Rinv_l by lra. lra. }
    assert (S : Rltb (2 * r / 4) d = true) by (apply Rltb_true; lra). rewrite S, Bool.orb_true_r. eexists. split; [reflexivity|]. apply cube_bounds. lra.
Qed.
Print Assumptions C58_parzen_partial.

(** Lanczos: never larger than one in absolute value, null beyond [arg] times the radius; with one lobe
    it is a weight of [0, 1] null beyond the radius. *)
Theorem C58_lanczos_partial : forall a f d r, python_weight Lanczos (Some a) = Ok f -> 0 < r -> 0 <= d ->
  exists v, f d r = Some v /\ -1 <= v <= 1 /\ (a * r < d -> v = 0) /\ (a = 1 -> 0 <= v <= 1 /\ (r < d -> v = 0)).
Proof.
  intros a f d r E R D. unfold python_weight in E. destruct (check_arg Lanczos (Some a)) eqn:C; [|discriminate]. injection E as <-. cbn [check_arg] in C. apply Bool.negb_true_iff, Rltb_false in C.
  cbn [weight arg_value]. unfold lanczos. destruct (Rleb d (a * r)) eqn:L.
  - apply Rleb_true in L. assert (P : 0 < r * a) by (apply Rmult_lt_0_compat; lra). rewrite !rdiv_some by lra. cbn [rbind].
    assert (X : 0 <= d / r) by (apply Rmult_le_pos; [lra|left; apply Rinv_0_lt_compat; exact R]). assert (Y : 0 <= d / (r * a)) by (apply Rmult_le_pos; [lra|left; apply Rinv_0_lt_compat; exact P]).
    eexists. split; [reflexivity|]. pose proof (mul_unit _ _ (sinc_bounds _ X) (sinc_bounds _ Y)) as M. split; [exact M|]. split; [intro; lra|]. intros ->. split; [|intro; lra].
    rewrite Rmult_1_r in *. split; [|lra]. pose proof (pow2_ge_0 (sinc (d / r))). nra.
  - exists 0. split; [reflexivity|]. apply Rleb_false in L. repeat split; try lra; reflexivity.
Qed.
Print Assumptions C58_lanczos_partial.

(** Whatever the number of lobes, up to the radius the weight is in [0, 1]. *)
Lemma sinc_first : forall t, 0 <= t <= 1 -> 0 <= sinc t.
Proof.
  intros t T. unfold sinc. destruct (Reqb t 0) eqn:E; [lra|]. apply Reqb_false in E. pose proof PI_RGT_0 as P. apply Rmult_le_pos.
  - apply sin_ge_0; [apply Rmult_le_pos; lra|]. replace PI with (PI * 1) at 2 by ring. apply Rmult_le_compat_l; lra.
  - left. apply Rinv_0_lt_compat, Rmult_lt_0_compat; lra.
Qed.
Theorem C58_lanczos_inside_partial : forall a f d r, python_weight Lanczos (Some a) = Ok f -> 0 < r -> 0 <= d <= r -> exists v, f d r = Some v /\ 0 <= v <= 1.
Proof.
  intros a f d r E R D. destruct (C58_lanczos_partial a f d r E R (proj1 D)) as (v & V & B & _). exists v. split; [exact V|]. split; [|lra].
  unfold python_weight in E. destruct (check_arg Lanczos (Some a)) eqn:C; [|discriminate]. injection E as <-. cbn [check_arg] in C. apply Bool.negb_true_iff, Rltb_false in C.
  cbn [weight arg_value] in V. unfold lanczos in V. destruct (Rleb d (a * r)); [|injection V as <-; lra]. assert (P : 0 < r * a) by (apply Rmult_lt_0_compat; lra). rewrite !rdiv_some in V by lra. cbn [rbind] in V. injection V as <-.
  apply Rmult_le_pos; apply sinc_first; apply frac; nra.
Qed.

(** Nearer points never weigh less. *)
Theorem C58_tapering_partial : forall w arg f d d' r v v', python_weight w arg = Ok f ->
  In w [Blackman; BlackmanHarris; Boxcar; Hamming] -> 0 < r -> 0 <= d -> d <= d' -> f d r = Some v -> f d' r = Some v' -> v' <= v.
Proof.
  intros w arg f d d' r v v' E I R D DD V V'.
  destruct (Rle_dec d' r) as [L|L].
  - unfold python_weight in E. destruct (check_arg w arg) eqn:C; [|discriminate]. injection E as <-.
    assert (T : uu d r <= uu d' r).
    { pose proof (frac d' r R (conj (Rle_trans _ _ _ D DD) L)). pose proof (frac d r R (conj D (Rle_trans _ _ _ DD L))). apply u_mono; [lra|apply frac_le; assumption|lra]. }
    pose proof (u_bounds (d / r)) as B. pose proof (u_bounds (d' / r)) as B'.
    destruct I as [<-|[<-|[<-|[<-|[]]]]]; cbn [weight] in V, V'.
    + rewrite blackman_in in V, V' by lra. injection V as <-. injection V' as <-. apply p_blackman_dec; unfold uu in *; lra.
    + rewrite harris_in in V, V' by lra. injection V as <-. injection V' as <-. apply p_harris_dec; unfold uu in *; lra.
    + unfold boxcar in V, V'. assert (F : Rleb d r = true) by (apply Rleb_true; lra). assert (F' : Rleb d' r = true) by (apply Rleb_true; lra). rewrite F in V. rewrite F' in V'. injection V as <-. injection V' as <-. lra.
    + rewrite hamming_in in V, V' by lra. injection V as <-. injection V' as <-. apply p_hamming_dec. exact T.
  - assert (J : In w [Blackman; BlackmanHarris; Boxcar; Gaussian; Hamming; Nuttall]) by (cbn in *; intuition).
    assert (G : w = Gaussian -> arg <> Some 0) by (intros ->; cbn in I; intuition discriminate).
    destruct (C58_windows_partial w arg f d r E J G R D) as (a & A & AB & _). destruct (C58_windows_partial w arg f d' r E J G R (Rle_trans _ _ _ D DD)) as (b & B & BB & Z).
    rewrite A in V. rewrite B in V'. injection V as <-. injection V' as <-. rewrite Z by lra. lra.
Qed.

(** At the query point the weight is 1 (0.98936 for Nuttall, 1.000000003 for the flat top). *)
Theorem C58_centre_partial : forall w arg f r, python_weight w arg = Ok f -> In w [Blackman; BlackmanHarris; Boxcar; Hamming; Parzen; ParzenSWOT] ->
  0 < r -> f 0 r = Some 1.
Proof.
  intros w arg f r E I R. unfold python_weight in E. destruct (check_arg w arg) eqn:C; [|discriminate]. injection E as <-.
  assert (U : uu 0 r = -1) by (unfold uu; replace (0 / r) with 0 by (field; lra); rewrite Rmult_0_r, cos_0; ring).
  destruct I as [<-|[<-|[<-|[<-|[<-|[<-|[]]]]]]]; cbn [weight].
  - rewrite blackman_in, U by lra. f_equal. unfold p_blackman. field.
  - rewrite harris_in, U by lra. f_equal. unfold p_harris. field.
  - unfold boxcar. assert (F : Rleb 0 r = true) by (apply Rleb_true; lra). rewrite F. reflexivity.
  - rewrite hamming_in, U by lra. f_equal. unfold p_hamming. field.
  - assert (A : 0 <= arg_value arg).
    { destruct arg as [a|]; cbn [arg_value check_arg] in *; [|lra]. apply Bool.negb_true_iff, Rltb_false in C. exact C. }
    unfold parzen. rewrite rdiv_some by lra. cbn [rbind]. assert (F : Rleb 0 ((2 * r + arg_value arg) / 4) = true) by (apply Rleb_true; lra). rewrite F. f_equal. field. lra.
  - unfold parzen_swot. rewrite rdiv_some by lra. cbn [rbind]. assert (F : Rleb 0 (2 * r / 4) = true) by (apply Rleb_true; lra). rewrite F. f_equal. field. lra.
Qed.

Theorem C58_centre_arg_partial : forall w a f r, python_weight w (Some a) = Ok f -> In w [Lanczos; Gaussian] -> a <> 0 -> 0 < r -> f 0 r = Some 1.
Proof.
  intros w a f r E I N R. unfold python_weight in E. destruct (check_arg w (Some a)) eqn:C; [|discriminate]. injection E as <-. cbn [arg_value].
  destruct I as [<-|[<-|[]]]; cbn [weight].
  - cbn [check_arg] in C. apply Bool.negb_true_iff, Rltb_false in C. unfold lanczos. assert (P : 0 < r * a) by (apply Rmult_lt_0_compat; lra). assert (L : Rleb 0 (a * r) = true) by (apply Rleb_true; lra). rewrite L, !rdiv_some by lra. cbn [rbind].
    replace (0 / r) with 0 by (field; lra). replace (0 / (r * a)) with 0 by (field; lra). unfold sinc. assert (Z : Reqb 0 0 = true) by (apply Reqb_true; reflexivity). rewrite Z. f_equal. ring.
  - unfold gaussian. assert (L : Rleb 0 r = true) by (apply Rleb_true; lra). rewrite L. apply Reqb_false in N. rewrite N. apply Reqb_false in N. replace (- (1 / 2) * (0 / a) ^ 2) with 0 by (field; lra). rewrite exp_0. reflexivity.
Qed.

(** ** Where the claim fails *)
(** The flat top is negative at the radius and larger than one at the centre. *)
Theorem C58_flat_top_refuted : exists f, python_weight FlatTop None = Ok f /\
  forall r, 0 < r -> (exists v, f r r = Some v /\ v < 0) /\ (exists v, f 0 r = Some v /\ 1 < v).
Proof.
  eexists. split; [reflexivity|]. intros r R. cbn [weight]. split.
  - eexists. split; [apply flat_in; lra|]. unfold uu. replace (r / r) with 1 by (field; lra). rewrite Rmult_1_r, cos_PI. unfold p_flat. lra.
  - eexists. split; [apply flat_in; lra|]. unfold uu. replace (0 / r) with 0 by (field; lra). rewrite Rmult_0_r, cos_0. unfold p_flat. lra.
Qed.
(** The Parzen windows do not vanish beyond the radius: they are negative there. *)
Theorem C58_parzen_refuted : forall w, In w [Parzen; ParzenSWOT] -> exists f, python_weight w None = Ok f /\
  forall d r, 0 < r -> r < d -> exists v, f d r = Some v /\ v < 0.
Proof.
  assert (K : forall t, 1 < t -> 2 * (1 - t) ^ 3 < 0).
  { intros t T. assert (0 < (t - 1) ^ 3) by (apply pow_lt; lra). replace ((1 - t) ^ 3) with (- (t - 1) ^ 3) by ring. lra. }
  intros w [<-|[<-|[]]]; (eexists; split; [unfold python_weight; cbn [check_arg]|]).
  - assert (F : Rltb 0 0 = false) by (apply Rltb_false; lra). rewrite F. reflexivity.
  - intros d r R D. cbn [weight arg_value]. unfold parzen. rewrite rdiv_some by lra. cbn [rbind].
    assert (F : Rleb d ((2 * r + 0) / 4) = false) by (apply Rleb_false; lra). rewrite F. assert (F' : Rltb ((2 * r + 0) / 4) d = true) by (apply Rltb_true; lra). rewrite F', Bool.orb_true_r.
    eexists. split; [reflexivity|]. apply K, frac_gt; assumption.
  - reflexivity.
  - intros d r R D. cbn [weight arg_value]. unfold parzen_swot. rewrite rdiv_some by lra. cbn [rbind]. replace (2 * d / (2 * r)) with (d / r) by (field; lra).
    assert (F : Rleb d (2 * r / 4) = false) by (apply Rleb_false; lra). rewrite F. assert (F' : Rltb (2 * r / 4) d = true) by (apply Rltb_true; lra). rewrite F', Bool.orb_true_r.
    eexists. split; [reflexivity|]. apply K, frac_gt; assumption.
Qed.
(** Two lobes of Lanczos: negative weights, beyond the radius. *)
Theorem C58_lanczos_refuted : exists f, python_weight Lanczos (Some 2) = Ok f /\
  forall r, 0 < r -> exists v, f (3 / 2 * r) r = Some v /\ v < 0.
Proof.
  assert (C : check_arg Lanczos (Some 2) = true) by (cbn [check_arg]; apply Bool.negb_true_iff, Rltb_false; lra).
  exists (fun d r => weight Lanczos d r 2). split; [unfold python_weight; rewrite C; reflexivity|]. intros r R. cbn [weight]. unfold lanczos.
  assert (F : Rleb (3 / 2 * r) (2 * r) = true) by (apply Rleb_true; lra). rewrite F, !rdiv_some by lra. cbn [rbind]. eexists. split; [reflexivity|].
  replace (3 / 2 * r / r) with (3 / 2) by (field; lra). replace (3 / 2 * r / (r * 2)) with (3 / 4) by (field; lra). pose proof PI_RGT_0 as P.
  assert (A : sinc (3 / 2) < 0).
  { unfold sinc. assert (N : Reqb (3 / 2) 0 = false) by (apply Reqb_false; lra). rewrite N. replace (sin (PI * (3 / 2))) with (-1) by (replace (PI * (3 / 2)) with (3 * (PI / 2)) by field; symmetry; apply sin_3PI2).
    unfold Rdiv. assert (0 < / (PI * (3 * / 2))) by (apply Rinv_0_lt_compat; lra). lra. }
  assert (B : 0 < sinc (3 / 4)).
  { unfold sinc. assert (N : Reqb (3 / 4) 0 = false) by (apply Reqb_false; lra). rewrite N. apply Rdiv_lt_0_compat; [apply sin_gt_0; lra|lra]. }
  nra.
Qed.
(** The documented default argument of Lanczos (one lobe) is not used: without argument every weight is
    null or not a number. *)
Theorem C58_lanczos_default_refuted : exists f, python_weight Lanczos None = Ok f /\ forall d r, f d r = Some 0 \/ f d r = None.
Proof.
  assert (C : check_arg Lanczos None = true) by (cbn [check_arg]; apply Bool.negb_true_iff, Rltb_false; lra).
  exists (fun d r => weight Lanczos d r 0). split; [unfold python_weight; rewrite C; reflexivity|]. intros d r. cbn [weight]. unfold lanczos.
  destruct (Rleb d (0 * r)); [right|left; reflexivity]. destruct (rdiv d r); cbn [rbind]; [|reflexivity]. unfold rdiv. rewrite Rmult_0_r. assert (E : Reqb 0 0 = true) by (apply Reqb_true; reflexivity). rewrite E. reflexivity.
Qed.
(** A null radius with the query on a data point: not a number. *)
Theorem C58_null_radius_refuted : forall w arg f, python_weight w arg = Ok f -> w <> Boxcar -> w <> Gaussian -> f 0 0 = None.
Proof.
  intros w arg f E B G. unfold python_weight in E. destruct (check_arg w arg); [|discriminate]. injection E as <-.
  assert (L : Rleb 0 0 = true) by (apply Rleb_true; lra). assert (Z : Reqb 0 0 = true) by (apply Reqb_true; reflexivity).
  destruct w; cbn [weight]; try contradiction; unfold blackman, blackman_harris, flat_top, hamming, nuttall, parzen, parzen_swot, lanczos, rdiv; rewrite ?Rmult_0_r, ?L, ?Z; reflexivity.
Qed.
