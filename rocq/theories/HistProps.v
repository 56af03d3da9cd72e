(** Theorems about the streaming histogram (properties C38 to C42).

    [lg] stands for the logarithm used when differences are weighted; it may be any
    function bounded by 1000 in absolute value, as [log(1e-5 + w)] is on doubles. *)
From Verif Require Import Base BaseProofs HistModel HistSpec HistProofs HistProofs2 HistSerModel HistSerProofs.
From Coq Require Import Permutation.
Open Scope Z_scope.

(** * C38 bins within budget and sorted *)
(** Every operation succeeds, there are at most [budget] bins, in ascending order, with
    positive weights. *)
Theorem C38_budget_sorted : forall lg h, small_log lg -> careful h ->
  exists s, run lg h = Ok s /\ zlen (h_bins s) <= budget h /\
    ascending (map bvalue (h_bins s)) /\ Forall (fun b => (0 < bweight b)%Q) (h_bins s).
Proof.
  intros lg h L C. destruct (run_inv lg h L C) as (s & E & I). exists s. split; [exact E|]. split; [apply (i_size _ _ I)|].
  destruct (i_bins _ _ I) as [A B]. split; assumption.
Qed.
Print Assumptions C38_budget_sorted.

(** With a budget of 0 bins (accepted by the constructor and by [resize]) the first value
    is undefined behaviour, and so is [resize(0)] on a histogram with data. *)
Theorem C38_zero_bins_refuted : forall lg v w,
  (exists e, run lg (Push (New 0) v w) = UB e) /\
  (forall n, 1 <= n -> exists e, run lg (Resize (Push (New n) v w) 0) = UB e).
Proof.
  intros lg v w. split; [eexists; reflexivity|]. intros n Hn. cbn [run]. unfold hist_resize, trim. cbn [h_bins hist_new h_weighted h_bin_count length trim_loop].
  replace (n <? zlen (A := bin) []) with false by (unfold zlen; cbn; lia). cbn [obind].
  unfold hist_push. cbn [h_bins update_bins obind]. unfold trim. cbn [h_bins h_weighted h_bin_count length trim_loop].
  change (zlen (A := bin) [(v, w)]) with 1. replace (n <? 1) with false by lia. cbn [obind h_bins h_weighted h_bin_count length trim_loop].
  eexists. reflexivity.
Qed.

(** When two values are further apart than the largest double, no pair of bins is chosen
    and the compression is undefined behaviour (one bin, +-1.7e308). *)
Theorem C38_huge_refuted : forall lg,
  exists e, run lg (Push (Push (New 1) (- dbl_max)%Q 1%Q) dbl_max 1%Q) = UB e.
Proof. intro lg. eexists. vm_compute. reflexivity. Qed.

Example C38_ex : let h := Push (Push (Push (New 2) 1 1) 5 1) 2 1 in
  careful h /\ exists s, run (fun _ => 0%Q) h = Ok s /\ length (h_bins s) = 2%nat.
Proof.
  cbn zeta. split.
  - cbn [careful]. repeat split; try lia; unfold moderate; apply Qle_bool_iff; vm_compute; reflexivity.
  - eexists. split; [vm_compute; reflexivity|reflexivity].
Qed.

(** * C39 conservation *)
(** The sum of the weights, the mean and the count are exactly those of the samples, even
    after compression. *)
Theorem C39_conservation : forall lg h, small_log lg -> careful h ->
  exists s, run lg h = Ok s /\
    h_count s = zlen (pushed h) /\
    (sum_of_weights s == sum_over (fun _ => 1%Q) (pushed h))%Q /\
    (pushed h <> [] -> exists m, hist_mean s = Some m /\
       (m == sum_over (fun v => v) (pushed h) / sum_over (fun _ => 1%Q) (pushed h))%Q).
Proof.
  intros lg h L C. destruct (run_inv lg h L C) as (s & E & I). exists s. split; [exact E|]. split; [apply (i_count _ _ I)|].
  assert (W : (sum_of_weights s == sum_over (fun _ => 1%Q) (pushed h))%Q) by (rewrite sum_of_weights_spec; apply (i_weight _ _ I)).
  split; [exact W|]. intro Hn.
  assert (P : (0 < wsum (h_bins s))%Q).
  { destruct (i_bins _ _ I) as [_ P]. destruct (h_bins s) as [|b l] eqn:El.
    - exfalso. apply Hn. apply (i_empty _ _ I). exact El.
    - inversion P as [|? ? Wb P' X]; subst. rewrite wsum_cons. pose proof (wsum_pos l P'). lra. }
  unfold hist_mean. pose proof (sum_of_weights_spec s) as S. unfold sum_of_weights in *.
  set (w := fold_left (fun a b => a + bweight b)%Q (h_bins s) 0%Q) in *.
  destruct (Qeqb_spec w 0) as [Z|Z]; [lra|]. eexists. split; [reflexivity|].
  rewrite mass_spec, (i_mass _ _ I), W. reflexivity.
Qed.
Print Assumptions C39_conservation.

(** As long as there were never more samples than bins, the bins are the samples. *)
Theorem C39_exact : forall lg h, small_log lg -> careful h -> roomy h ->
  exists s, run lg h = Ok s /\ Permutation (h_bins s) (pushed h).
Proof.
  intros lg h L C R. destruct (run_inv lg h L C) as (s & E & I). exists s. split; [exact E|]. apply (i_exact _ _ I R).
Qed.
Print Assumptions C39_exact.

(** * C40 extremes *)
Lemma map_wv_unit : forall l, Forall (fun s => snd s = 1%Q) l ->
  forall x, (exists y, In y (map wv l) /\ (y == x)%Q) <-> (exists y, In y (map fst l) /\ (y == x)%Q).
Proof.
  intros l H x. rewrite Forall_forall in H. split; intros (y & Hy & Ey); apply in_map_iff in Hy; destruct Hy as (s & <- & Hs).
  - exists (fst s). split; [apply in_map; exact Hs|]. rewrite <- Ey. unfold wv. rewrite (H s Hs). ring.
  - exists (wv s). split; [apply in_map; exact Hs|]. rewrite <- Ey. unfold wv. rewrite (H s Hs). ring.
Qed.

(** Unit weights: the minimum is the smallest value. *)
Theorem C40_minimum : forall lg h, small_log lg -> careful h -> pushed h <> [] ->
  Forall (fun s => snd s = 1%Q) (pushed h) ->
  exists s m, run lg h = Ok s /\ hist_get_min s = Some m /\ least m (map fst (pushed h)).
Proof.
  intros lg h L C Hn U. destruct (run_inv lg h L C) as (s & E & I). exists s, (h_min s). split; [exact E|].
  unfold hist_get_min. rewrite (i_count _ _ I). destruct (pushed h) as [|p t] eqn:Ep; [congruence|]. rewrite <- Ep in *.
  replace (zlen (pushed h) =? 0) with false by (rewrite Ep; unfold zlen; cbn [length]; lia). split; [reflexivity|].
  destruct (i_min _ _ I) as [X Y].
  assert (Small : forall q, In q (pushed h) -> (fst q < dbl_max)%Q).
  { assert (G : forall h, careful h -> forall q, In q (pushed h) -> moderate (fst q)).
    { clear. induction h; cbn [careful pushed]; intros Cx q Hq; try contradiction.
      - destruct Cx as (Cx & _ & M). apply in_app_or in Hq. destruct Hq as [Hq|[<-|[]]]; [auto|exact M].
      - destruct Cx. apply in_app_or in Hq. destruct Hq; auto.
      - destruct Cx. auto. }
    intros q Hq. specialize (G h C q Hq). unfold moderate in G. apply Qabs_bounds in G. pose proof dmax_pos. lra. }
  split.
  - apply (map_wv_unit _ U). destruct X as (x & [Hx|Hx] & Ex); [|exists x; auto]. subst x. exfalso.
    assert (Hp : In (wv p) (dbl_max :: map wv (pushed h))) by (right; rewrite Ep; left; reflexivity).
    specialize (Y _ Hp). specialize (Small p ltac:(rewrite Ep; left; reflexivity)).
    rewrite Forall_forall in U. unfold wv in Y. rewrite (U p ltac:(rewrite Ep; left; reflexivity)) in Y. lra.
  - intros x Hx. apply in_map_iff in Hx. destruct Hx as (q & <- & Hq).
    specialize (Y (wv q) (or_intror (in_map wv _ _ Hq))). unfold wv in Y. rewrite Forall_forall in U. rewrite (U q Hq) in Y. lra.
Qed.
Print Assumptions C40_minimum.

(** Unit weights: the maximum is the largest value provided some value is at least the
    smallest positive normal double. *)
Theorem C40_maximum_partial : forall lg h, small_log lg -> careful h ->
  Forall (fun s => snd s = 1%Q) (pushed h) ->
  (exists q, In q (pushed h) /\ (dbl_min <= fst q)%Q) ->
  exists s m, run lg h = Ok s /\ hist_get_max s = Some m /\ greatest m (map fst (pushed h)).
Proof.
  intros lg h L C U (p & Hp & Lp). destruct (run_inv lg h L C) as (s & E & I). exists s, (h_max s). split; [exact E|].
  unfold hist_get_max. rewrite (i_count _ _ I). destruct (pushed h) as [|p0 t] eqn:Ep; [destruct Hp|]. rewrite <- Ep in *.
  replace (zlen (pushed h) =? 0) with false by (rewrite Ep; unfold zlen; cbn [length]; lia). split; [reflexivity|].
  destruct (i_max _ _ I) as [X Y]. rewrite Forall_forall in U.
  assert (V : forall q, In q (pushed h) -> (fst q <= h_max s)%Q).
  { intros q Hq. specialize (Y (wv q) (or_intror (in_map wv _ _ Hq))). unfold wv in Y. rewrite (U q Hq) in Y. lra. }
  split.
  - destruct X as (x & [Hx|Hx] & Ex).
    + subst x. exists (fst p). split; [apply in_map; exact Hp|]. specialize (V p Hp). apply Qle_antisym; [lra|]. rewrite <- Ex. exact Lp.
    + apply (map_wv_unit (pushed h)); [apply Forall_forall; exact U|]. exists x; auto.
  - intros x Hx. apply in_map_iff in Hx. destruct Hx as (q & <- & Hq). apply V; exact Hq.
Qed.
Print Assumptions C40_maximum_partial.

(** Otherwise (negative or null data) the maximum is the smallest positive normal double,
    whatever the data: it is never one of the values. *)
Theorem C40_maximum_refuted : forall lg h, small_log lg -> careful h -> pushed h <> [] ->
  Forall (fun s => snd s = 1%Q) (pushed h) ->
  (forall q, In q (pushed h) -> (fst q < dbl_min)%Q) ->
  exists s m, run lg h = Ok s /\ hist_get_max s = Some m /\ (m == dbl_min)%Q /\ ~ greatest m (map fst (pushed h)).
Proof.
  intros lg h L C Hn U B. destruct (run_inv lg h L C) as (s & E & I). exists s, (h_max s). split; [exact E|].
  unfold hist_get_max. rewrite (i_count _ _ I). destruct (pushed h) as [|p t] eqn:Ep; [congruence|]. rewrite <- Ep in *.
  replace (zlen (pushed h) =? 0) with false by (rewrite Ep; unfold zlen; cbn [length]; lia). split; [reflexivity|].
  destruct (i_max _ _ I) as [(x & Hx & Ex) Y]. rewrite Forall_forall in U.
  assert (Em : (h_max s == dbl_min)%Q).
  { destruct Hx as [Hx|Hx]; [subst x; symmetry; exact Ex|]. apply in_map_iff in Hx. destruct Hx as (q & <- & Hq).
    specialize (Y dbl_min (or_introl eq_refl)). specialize (B q Hq). unfold wv in Ex. rewrite (U q Hq) in Ex.
    exfalso. lra. }
  split; [exact Em|]. intros [(y & Hy & Ey) _]. apply in_map_iff in Hy. destruct Hy as (q & <- & Hq). specialize (B q Hq). lra.
Qed.
Print Assumptions C40_maximum_refuted.

(** With weights, minimum and maximum are those of weight * value. *)
Theorem C40_weighted_refuted : exists h s m, careful h /\ run (fun _ => 0%Q) h = Ok s /\ hist_get_min s = Some m /\
  (m == 10)%Q /\ map fst (pushed h) = [5%Q].
Proof.
  exists (Push (New 10) 5 2). eexists. eexists. split.
  - cbn [careful]. repeat split; try lia; unfold moderate; apply Qle_bool_iff; vm_compute; reflexivity.
  - split; [vm_compute; reflexivity|]. split; [reflexivity|]. split; reflexivity.
Qed.

(** * C41 quantiles *)
Lemma unit_within : forall s h, inv s h -> Forall (fun p => snd p = 1%Q) (pushed h) -> within (h_min s) (h_max s) (h_bins s).
Proof.
  intros s h I U. apply (i_within _ _ I). intros p Hp. rewrite Forall_forall in U.
  destruct (i_min _ _ I) as [_ Y]. destruct (i_max _ _ I) as [_ Z].
  specialize (Y (wv p) (or_intror (in_map wv _ _ Hp))). specialize (Z (wv p) (or_intror (in_map wv _ _ Hp))).
  unfold wv in Y, Z. rewrite (U p Hp) in Y, Z. split; lra.
Qed.

(** For data with unit weights, [quantile(q)] succeeds for every q in [0, 1], lies between
    the recorded minimum and maximum, equals them at 0 and 1, and does not decrease. *)
Theorem C41_quantile : forall lg h, small_log lg -> careful h -> pushed h <> [] ->
  Forall (fun s => snd s = 1%Q) (pushed h) ->
  exists s mn mx f, run lg h = Ok s /\ hist_get_min s = Some mn /\ hist_get_max s = Some mx /\
    (forall q, (0 <= q <= 1)%Q -> hist_quantile s q = Ok (Some (f q)) /\ (mn <= f q <= mx)%Q) /\
    (f 0 == mn)%Q /\ (f 1 == mx)%Q /\
    (forall p q, (0 <= p)%Q -> (p <= q)%Q -> (q <= 1)%Q -> (f p <= f q)%Q).
Proof.
  intros lg h L C Hn U. destruct (run_inv lg h L C) as (s & E & I).
  destruct (h_bins s) as [|front rest] eqn:Eb; [exfalso; apply Hn; apply (i_empty _ _ I); exact Eb|].
  pose proof (unit_within s h I U) as Wi. pose proof (i_bins _ _ I) as B.
  exists s, (h_min s), (h_max s), (fun q => match hist_quantile s q with Ok (Some r) => r | _ => 0%Q end).
  split; [exact E|]. unfold hist_get_min, hist_get_max. rewrite (i_count _ _ I).
  replace (zlen (pushed h) =? 0) with false by (destruct (pushed h); [congruence|unfold zlen; cbn [length]; lia]).
  split; [reflexivity|]. split; [reflexivity|].
  pose proof (quantile_zone s front rest Eb B Wi) as Z.
  pose proof (front_v s front rest Eb Wi) as Fv. pose proof (back_v s front rest Eb Wi) as Bv. pose proof (front_back s front rest Eb B) as FB.
  pose proof (W_pos s front rest Eb B) as Wp. pose proof (front_w s front rest Eb B) as Fw. pose proof (back_w s front rest Eb B) as Bw.
  pose proof (W_eq s front rest Eb) as We. destruct B as [B1 B2]. pose proof (halves_nonneg _ B2) as Hh.
  split.
  { intros q Hq. destruct (Z q Hq) as (r & Er & Zr). rewrite Er. split; [reflexivity|].
    destruct Zr as [(_ & _ & R)|[(_ & _ & _ & R)|(_ & _ & _ & _ & R)]]; lra. }
  split.
  { destruct (Z 0%Q ltac:(lra)) as (r & Er & Zr). rewrite Er. destruct Zr as [(P1 & P2 & _)|[(P0 & _)|(P0 & _)]]; try lra.
    rewrite P2. field. lra. }
  split.
  { destruct (Z 1%Q ltac:(lra)) as (r & Er & Zr). rewrite Er. destruct Zr as [(P1 & P2 & _)|[(P0 & P1 & P2 & _)|(P0 & P1 & _)]]; try lra.
    rewrite P2. field. lra. }
  intros p q Hp Hpq Hq. destruct (Z p ltac:(lra)) as (r & Er & Zr). destruct (Z q ltac:(lra)) as (t & Et & Zt). rewrite Er, Et.
  eapply (zone_mono s front rest Eb (conj B1 B2) Wi p q); eassumption.
Qed.
Print Assumptions C41_quantile.

(** Quantiles outside [0, 1] are refused, and an empty histogram answers NaN. *)
Theorem C41_domain : forall lg h q, small_log lg -> careful h ->
  exists s, run lg h = Ok s /\
    (pushed h = [] -> hist_quantile s q = Ok None) /\
    (pushed h <> [] -> ~ (0 <= q <= 1)%Q -> exists w, hist_quantile s q = Throw w).
Proof.
  intros lg h q L C. destruct (run_inv lg h L C) as (s & E & I). exists s. split; [exact E|]. unfold hist_quantile. split.
  - intro H. apply (i_empty _ _ I) in H. rewrite H. reflexivity.
  - intros Hn Hq. destruct (h_bins s) as [|f t] eqn:Eb; [exfalso; apply Hn; apply (i_empty _ _ I); exact Eb|].
    replace (Qltb q 0 || Qltb 1 q)%bool with true; [eauto|]. symmetry. apply orb_true_iff.
    destruct (Qltb_spec q 0) as [X|X]; [left; reflexivity|]. right. apply Qltb_true.
    destruct (Qlt_le_dec 1 q) as [Y|Y]; [exact Y|]. exfalso. apply Hq. split; assumption.
Qed.
Print Assumptions C41_domain.

(** With weights the quantiles are neither bounded by the data nor monotone: the recorded
    minimum (weight * value) can exceed the first bin. *)
Theorem C41_weighted_refuted : exists h s a b, careful h /\ run (fun _ => 0%Q) h = Ok s /\
  hist_quantile s 0 = Ok (Some a) /\ hist_quantile s (1 # 2) = Ok (Some b) /\ (b < a)%Q.
Proof.
  exists (Push (New 10) 5 2). eexists. eexists. eexists. split.
  - cbn [careful]. repeat split; try lia; unfold moderate; apply Qle_bool_iff; vm_compute; reflexivity.
  - split; [vm_compute; reflexivity|]. split; [vm_compute; reflexivity|]. split; [vm_compute; reflexivity|reflexivity].
Qed.

Example C41_ex : let h := Push (Push (Push (New 2) 1 1) 5 1) 2 1 in
  careful h /\ Forall (fun s => snd s = 1%Q) (pushed h) /\
  exists s r, run (fun _ => 0%Q) h = Ok s /\ hist_quantile s (1 # 2) = Ok (Some r) /\ (r == 8 # 3)%Q.
Proof.
  cbn zeta. split; [|split].
  - cbn [careful]. repeat split; try lia; unfold moderate; apply Qle_bool_iff; vm_compute; reflexivity.
  - repeat constructor.
  - eexists. eexists. split; [vm_compute; reflexivity|]. split; [vm_compute; reflexivity|reflexivity].
Qed.

(** * C42 serialization *)
(** One histogram: reading back what was written gives the same fields, whatever follows;
    every strict prefix is refused. *)
Theorem C42_roundtrip : forall tsz h rest, (0 < tsz)%nat -> well_formed tsz h -> load tsz (dump tsz h ++ rest) = Ok h.
Proof. intros. apply load_dump; assumption. Qed.
Print Assumptions C42_roundtrip.
Theorem C42_truncated : forall tsz h n, (0 < tsz)%nat -> well_formed tsz h -> (n < length (dump tsz h))%nat ->
  load tsz (firstn n (dump tsz h)) = Throw "invalid state".
Proof. intros. apply load_truncated; assumption. Qed.
Print Assumptions C42_truncated.

(** The array of histograms (pickling). *)
Theorem C42_array_roundtrip : forall tsz l, (0 < tsz)%nat -> Forall (well_formed tsz) l -> Forall (addressable tsz) l ->
  zlen l < 2 ^ 63 -> load_array tsz (dump_array tsz l) = Ok l.
Proof.
  intros tsz l T W A S. unfold load_array, dump_array. rewrite (get_ok 8) by apply le_zlen. cbn [obind].
  rewrite le_round8 by (split; [unfold zlen; lia|change (2 ^ 64) with (2 * 2 ^ 63); lia]).
  replace (2 ^ 63 <=? zlen l) with false by lia. unfold zlen. rewrite Nat2Z.id.
  pose proof (load_items_ok tsz T l [] W A) as E. rewrite app_nil_r in E. exact E.
Qed.
Print Assumptions C42_array_roundtrip.
Theorem C42_array_truncated : forall tsz l n, (0 < tsz)%nat -> Forall (well_formed tsz) l -> Forall (addressable tsz) l ->
  zlen l < 2 ^ 63 -> (n < length (dump_array tsz l))%nat ->
  load_array tsz (firstn n (dump_array tsz l)) = Throw "invalid state".
Proof.
  intros tsz l n T W A S Hn. unfold load_array, dump_array in *.
  destruct (get_cut 8 _ _ n (le_zlen 8 (zlen l)) Hn) as [[L E]|(L & E & H)]; rewrite E; cbn [obind]; [reflexivity|].
  rewrite le_round8 by (split; [unfold zlen; lia|change (2 ^ 64) with (2 * 2 ^ 63); lia]).
  replace (2 ^ 63 <=? zlen l) with false by lia. unfold zlen. rewrite Nat2Z.id.
  apply (load_items_cut tsz T l _ W A H).
Qed.
Print Assumptions C42_array_truncated.

(** Forged states are not all refused: a size of 2^63 or more is read as negative. *)
Theorem C42_forged_refuted : exists data w, load_array 8 data = UB w.
Proof. exists (le_bytes 8 1 ++ le_bytes 8 (2 ^ 63)). eexists. vm_compute. reflexivity. Qed.

Example C42_ex : let h := RawHist false 100 2 4607182418800017408 4611686018427387904 [(4607182418800017408, 4607182418800017408)] in
  well_formed 8 h /\ length (dump 8 h) = 57%nat.
Proof. cbn zeta. split; [|reflexivity]. unfold well_formed, u64, bits. cbn. repeat split; try lia. repeat constructor; cbn; lia. Qed.
