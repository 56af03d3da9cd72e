(** Lemmas about the descriptive statistics. *)
From Verif Require Import Base BaseProofs StatsModel StatsSpec.
Open Scope Q_scope.

Lemma total_app : forall f l m, total f (l ++ m) == total f l + total f m.
Proof. intros f l m. induction l as [|[v w] l IH]; cbn [app total]; [ring|]. rewrite IH. ring. Qed.
Lemma weight_app : forall l m, weight (l ++ m) == weight l + weight m.
Proof. intros. apply total_app. Qed.

Definition ctr (k : Z) (c : Q) (l : list sample) : Q := total (fun v => (v - c) ^ k) l.
Lemma ctr_shift1 : forall c d l, total (fun v => (v - c)) l == total (fun v => v - d) l + (d - c) * weight l.
Proof. intros. unfold weight. induction l as [|[v w] l IH]; cbn [total]; [ring|]. rewrite IH. ring. Qed.
Lemma ctr_shift2 : forall c d l,
  ctr 2 c l == ctr 2 d l + 2 * (d - c) * total (fun v => v - d) l + (d - c) ^ 2 * weight l.
Proof. intros. unfold ctr, weight. induction l as [|[v w] l IH]; cbn [total]; [ring|]. rewrite IH. ring. Qed.
Lemma ctr_shift3 : forall c d l,
  ctr 3 c l == ctr 3 d l + 3 * (d - c) * ctr 2 d l + 3 * (d - c) ^ 2 * total (fun v => v - d) l + (d - c) ^ 3 * weight l.
Proof. intros. unfold ctr, weight. induction l as [|[v w] l IH]; cbn [total]; [ring|]. rewrite IH. ring. Qed.
Lemma ctr_shift4 : forall c d l,
  ctr 4 c l == ctr 4 d l + 4 * (d - c) * ctr 3 d l + 6 * (d - c) ^ 2 * ctr 2 d l
     + 4 * (d - c) ^ 3 * total (fun v => v - d) l + (d - c) ^ 4 * weight l.
Proof. intros. unfold ctr, weight. induction l as [|[v w] l IH]; cbn [total]; [ring|]. rewrite IH. ring. Qed.

Lemma total_id_shift : forall c l, total (fun v => v) l == total (fun v => v - c) l + c * weight l.
Proof. intros. unfold weight. induction l as [|[v w] l IH]; cbn [total]; [ring|]. rewrite IH. ring. Qed.
Lemma mean_zero : forall l, ~ weight l == 0 -> total (fun v => v - mean l) l == 0.
Proof.
  intros l H. pose proof (total_id_shift (mean l) l) as E.
  assert (total (fun v => v) l == mean l * weight l) by (unfold mean; field; exact H). lra.
Qed.
Lemma total_mean : forall l, ~ weight l == 0 -> total (fun v => v) l == mean l * weight l.
Proof. intros l H. unfold mean. field. exact H. Qed.

Lemma mean_app : forall l m, ~ weight l == 0 -> ~ weight m == 0 -> ~ weight l + weight m == 0 ->
  mean (l ++ m) == (mean l * weight l + mean m * weight m) / (weight l + weight m).
Proof.
  intros l m Hl Hm H. unfold mean at 1. rewrite total_app, weight_app, !total_mean by assumption. reflexivity.
Qed.

Lemma moments_app : forall l m, ~ weight l == 0 -> ~ weight m == 0 -> ~ weight l + weight m == 0 ->
  let a := weight l in let b := weight m in let d := mean m - mean l in let n := a + b in
  moment 2 (l ++ m) == moment 2 l + moment 2 m + a * b * d * (d / n) /\
  moment 3 (l ++ m) == moment 3 l + moment 3 m + a * b * (a - b) * d * (d / n) * (d / n)
     + 3 * (a * moment 2 m - b * moment 2 l) * (d / n) /\
  moment 4 (l ++ m) == moment 4 l + moment 4 m
     + a * b * (a * a - a * b + b * b) * d * (d / n) * (d / n) * (d / n)
     + 6 * (a * a * moment 2 m + b * b * moment 2 l) * (d / n) * (d / n)
     + 4 * (a * moment 3 m - b * moment 3 l) * (d / n).
Proof.
  intros l m Hl Hm H a b d n.
  set (c := mean (l ++ m)).
  assert (Dl : mean l - c == - (b * d / n)).
  { unfold c. rewrite mean_app by assumption. unfold n, d, b, a. revert H. generalize (mean l), (mean m), (weight l), (weight m). intros. field. assumption. }
  assert (Dm : mean m - c == a * d / n).
  { unfold c. rewrite mean_app by assumption. unfold n, d, b, a. revert H. generalize (mean l), (mean m), (weight l), (weight m). intros. field. assumption. }
  pose proof (mean_zero l Hl) as Zl. pose proof (mean_zero m Hm) as Zm.
  assert (M : forall k, moment k (l ++ m) == ctr k c l + ctr k c m) by (intro; unfold moment, ctr; apply total_app).
  change (moment 2 l) with (ctr 2 (mean l) l). change (moment 2 m) with (ctr 2 (mean m) m).
  change (moment 3 l) with (ctr 3 (mean l) l). change (moment 3 m) with (ctr 3 (mean m) m).
  change (moment 4 l) with (ctr 4 (mean l) l). change (moment 4 m) with (ctr 4 (mean m) m).
  rewrite !M.
  rewrite (ctr_shift2 c (mean l) l), (ctr_shift2 c (mean m) m), (ctr_shift3 c (mean l) l), (ctr_shift3 c (mean m) m),
    (ctr_shift4 c (mean l) l), (ctr_shift4 c (mean m) m), Zl, Zm, Dl, Dm.
  change (weight l) with a. change (weight m) with b.
  generalize (ctr 2 (mean l) l), (ctr 2 (mean m) m), (ctr 3 (mean l) l), (ctr 3 (mean m) m), (ctr 4 (mean l) l), (ctr 4 (mean m) m).
  intros. unfold n in *. repeat split; field; exact H.
Qed.

(** Numbers. *)
Definition is (x : num) (q : Q) : Prop := exists q', x = N q' /\ q' == q.
Lemma is_N : forall q q', q == q' -> is (N q) q'.
Proof. intros. exists q. auto. Qed.
Lemma is_add : forall x y p q, is x p -> is y q -> is (nadd x y) (p + q).
Proof. intros x y p q (a & -> & A) (b & -> & B). apply is_N. rewrite A, B. reflexivity. Qed.
Lemma is_sub : forall x y p q, is x p -> is y q -> is (nsub x y) (p - q).
Proof. intros x y p q (a & -> & A) (b & -> & B). apply is_N. rewrite A, B. reflexivity. Qed.
Lemma is_mul : forall x y p q, is x p -> is y q -> is (nmul x y) (p * q).
Proof. intros x y p q (a & -> & A) (b & -> & B). apply is_N. rewrite A, B. reflexivity. Qed.
Lemma is_div : forall x y p q, is x p -> is y q -> ~ q == 0 -> is (ndiv x y) (p / q).
Proof.
  intros x y p q (a & -> & A) (b & -> & B) H. unfold ndiv.
  destruct (Qeq_bool b 0) eqn:E; [apply Qeq_bool_iff in E; exfalso; apply H; rewrite <- B; exact E|].
  apply is_N. rewrite A, B. reflexivity.
Qed.
Lemma is_eq : forall x p q, is x p -> p == q -> is x q.
Proof. intros x p q (a & -> & A) E. exists a. split; [reflexivity|]. rewrite A. exact E. Qed.
Lemma is_lt : forall x y p q, is x p -> is y q -> nlt x y = Qltb p q.
Proof.
  intros x y p q (a & -> & A) (b & -> & B). cbn. unfold Qltb. f_equal.
  destruct (Qle_bool b a) eqn:E, (Qle_bool q p) eqn:F; try reflexivity; exfalso.
  - apply Qle_bool_iff in E. rewrite A, B in E. apply Qle_bool_iff in E. congruence.
  - apply Qle_bool_iff in F. rewrite <- A, <- B in F. apply Qle_bool_iff in F. congruence.
Qed.
Lemma is_eq0 : forall x p, is x p -> neq0 x = Qeq_bool p 0.
Proof.
  intros x p (a & -> & A). cbn. destruct (Qeq_bool a 0) eqn:E, (Qeq_bool p 0) eqn:F; try reflexivity; exfalso.
  - apply Qeq_bool_iff in E. rewrite A in E. apply Qeq_bool_iff in E. congruence.
  - apply Qeq_bool_iff in F. rewrite <- A in F. apply Qeq_bool_iff in F. congruence.
Qed.

Ltac is_tac :=
  first [ eassumption | (apply is_N; reflexivity)
        | (eapply is_add; [is_tac|is_tac]) | (eapply is_sub; [is_tac|is_tac]) | (eapply is_mul; [is_tac|is_tac])
        | (eapply is_div; [is_tac|is_tac|assumption]) ].

(** Everything but the extremes. *)
Definition moments_of (a : acc) (l : list sample) : Prop :=
  a_count a = zlen l /\ is (a_sow a) (weight l) /\ is (a_mean a) (mean l) /\ is (a_sum a) (total (fun v => v) l) /\
  is (a_mom2 a) (moment 2 l) /\ is (a_mom3 a) (moment 3 l) /\ is (a_mom4 a) (moment 4 l).

Lemma moments_single : forall x y v w, is x v -> is y w -> ~ w == 0 -> moments_of (acc_single x y) [(v, w)].
Proof.
  intros x y v w Hx Hy H.
  assert (M : mean [(v, w)] == v) by (unfold mean, weight; cbn [total]; field; exact H).
  assert (forall k, (k = 2 \/ k = 3 \/ k = 4)%Z -> 0 == moment k [(v, w)]).
  { intros k Hk. unfold moment. cbn [total]. rewrite M. destruct Hk as [->|[->| ->]]; ring. }
  repeat split; cbn [acc_single a_sow a_mean a_sum a_mom2 a_mom3 a_mom4 a_count].
  - eapply is_eq; [exact Hy|]. unfold weight; cbn [total]; ring.
  - eapply is_eq; [exact Hx|]. symmetry; exact M.
  - eapply is_eq; [apply is_mul; eassumption|]. cbn [total]; ring.
  - apply is_N. auto.
  - apply is_N. auto.
  - apply is_N. auto.
Qed.

Lemma moments_merge : forall a b l m, moments_of a l -> moments_of b m ->
  ~ weight l == 0 -> ~ weight m == 0 -> ~ weight l + weight m == 0 -> moments_of (acc_merge a b) (l ++ m).
Proof.
  intros a b l m (A0 & A1 & A2 & A3 & A4 & A5 & A6) (B0 & B1 & B2 & B3 & B4 & B5 & B6) Hl Hm H.
  destruct (moments_app l m Hl Hm H) as (M2 & M3 & M4).
  unfold acc_merge. repeat split; cbn [a_count a_sow a_mean a_sum a_mom2 a_mom3 a_mom4].
  - rewrite A0, B0. unfold zlen. rewrite app_length. lia.
  - eapply is_eq; [is_tac|]. rewrite weight_app. reflexivity.
  - eapply is_eq; [is_tac|]. rewrite mean_app by assumption. field. exact H.
  - eapply is_eq; [is_tac|]. rewrite total_app. reflexivity.
  - eapply is_eq; [is_tac|]. rewrite M2. ring.
  - eapply is_eq; [is_tac|]. rewrite M3. ring.
  - eapply is_eq; [is_tac|]. rewrite M4. ring.
Qed.

(** Unweighted push = merge with a sample of weight one. *)
Lemma moments_push : forall a x l v, is x v -> moments_of a l -> ~ weight l == 0 -> ~ weight l + 1 == 0 ->
  moments_of (acc_push a x) (l ++ [(v, 1)]).
Proof.
  intros a x l v Hx (A0 & A1 & A2 & A3 & A4 & A5 & A6) Hl H.
  assert (W1 : weight [(v, 1)] == 1) by (unfold weight; cbn [total]; ring).
  assert (Mv : mean [(v, 1)] == v) by (unfold mean, weight; cbn [total]; field).
  assert (Z1 : forall k, (k = 2 \/ k = 3 \/ k = 4)%Z -> moment k [(v, 1)] == 0).
  { intros k Hk. unfold moment. cbn [total]. rewrite Mv. destruct Hk as [->|[->| ->]]; ring. }
  assert (H1 : ~ weight [(v, 1)] == 0) by (rewrite W1; discriminate).
  assert (H2 : ~ weight l + weight [(v, 1)] == 0) by (rewrite W1; exact H).
  destruct (moments_app l [(v, 1)] Hl H1 H2) as (M2 & M3 & M4).
  rewrite Mv, W1 in M2, M3, M4. rewrite (Z1 2%Z) in M2 by auto. rewrite (Z1 3%Z), (Z1 2%Z) in M3 by auto.
  rewrite (Z1 4%Z), (Z1 3%Z), (Z1 2%Z) in M4 by auto.
  unfold acc_push. rewrite (is_eq0 _ _ A1).
  destruct (Qeq_bool (weight l) 0) eqn:E; [apply Qeq_bool_iff in E; contradiction|].
  repeat split; cbn [a_count a_sow a_mean a_sum a_mom2 a_mom3 a_mom4].
  - rewrite A0. unfold zlen. rewrite app_length. cbn [length]. lia.
  - eapply is_eq; [is_tac|]. rewrite weight_app, W1. reflexivity.
  - eapply is_eq; [is_tac|]. rewrite mean_app, Mv, W1 by assumption. field. exact H.
  - eapply is_eq; [is_tac|]. rewrite total_app. cbn [total]. ring.
  - eapply is_eq; [is_tac|]. rewrite M2. field. exact H.
  - eapply is_eq; [is_tac|]. rewrite M3. field. exact H.
  - eapply is_eq; [is_tac|]. rewrite M4. field. exact H.
Qed.

(** Extremes. *)
Definition extremes_of (a : acc) (l : list Q) : Prop :=
  exists lo hi, is (a_min a) lo /\ is (a_max a) hi /\ is_least lo l /\ is_greatest hi l.

Lemma Qltb_spec : forall x y, Bool.reflect (x < y) (Qltb x y).
Proof.
  intros x y. unfold Qltb. destruct (Qle_bool y x) eqn:E; cbn; constructor.
  - apply Qle_bool_iff in E. lra.
  - intros. destruct (Qlt_le_dec x y) as [L|L]; [exact L|]. apply Qle_bool_iff in L. congruence.
Qed.

Lemma least_app : forall p q l m, is_least p l -> is_least q m ->
  is_least (if Qltb q p then q else p) (l ++ m).
Proof.
  intros p q l m [(x & X1 & X2) X3] [(y & Y1 & Y2) Y3]. destruct (Qltb_spec q p) as [L|L].
  - split; [exists y; split; [apply in_or_app; auto|exact Y2]|]. intros z Hz. apply in_app_or in Hz.
    destruct Hz as [Hz|Hz]; [specialize (X3 z Hz); lra|auto].
  - split; [exists x; split; [apply in_or_app; auto|exact X2]|]. intros z Hz. apply in_app_or in Hz.
    destruct Hz as [Hz|Hz]; [auto|specialize (Y3 z Hz); lra].
Qed.
Lemma greatest_app : forall p q l m, is_greatest p l -> is_greatest q m ->
  is_greatest (if Qltb p q then q else p) (l ++ m).
Proof.
  intros p q l m [(x & X1 & X2) X3] [(y & Y1 & Y2) Y3]. destruct (Qltb_spec p q) as [L|L].
  - split; [exists y; split; [apply in_or_app; auto|exact Y2]|]. intros z Hz. apply in_app_or in Hz.
    destruct Hz as [Hz|Hz]; [specialize (X3 z Hz); lra|auto].
  - split; [exists x; split; [apply in_or_app; auto|exact X2]|]. intros z Hz. apply in_app_or in Hz.
    destruct Hz as [Hz|Hz]; [auto|specialize (Y3 z Hz); lra].
Qed.
Lemma least_single : forall v p, p == v -> is_least p [v].
Proof. intros. split; [exists v; split; [left; reflexivity|symmetry; exact H]|]. intros x [<-|[]]. lra. Qed.
Lemma greatest_single : forall v p, p == v -> is_greatest p [v].
Proof. intros. split; [exists v; split; [left; reflexivity|symmetry; exact H]|]. intros x [<-|[]]. lra. Qed.

Lemma extremes_single : forall x y v w, is x v -> is y w -> extremes_of (acc_single x y) [w * v].
Proof.
  intros x y v w Hx Hy. exists (w * v), (w * v). cbn [acc_single a_min a_max].
  repeat split; try (apply is_mul; assumption); try (apply least_single; reflexivity); try (apply greatest_single; reflexivity).
Qed.
Lemma extremes_merge : forall a b l m, extremes_of a l -> extremes_of b m -> extremes_of (acc_merge a b) (l ++ m).
Proof.
  intros a b l m (p & p' & P1 & P2 & P3 & P4) (q & q' & Q1 & Q2 & Q3 & Q4).
  exists (if Qltb q p then q else p), (if Qltb p' q' then q' else p'). unfold acc_merge; cbn [a_min a_max].
  rewrite (is_lt _ _ _ _ Q1 P1), (is_lt _ _ _ _ P2 Q2).
  split; [destruct (Qltb q p); assumption|]. split; [destruct (Qltb p' q'); assumption|].
  split; [apply least_app; assumption|apply greatest_app; assumption].
Qed.
Lemma extremes_push : forall a x l v, is x v -> extremes_of a l -> neq0 (a_sow a) = false -> extremes_of (acc_push a x) (l ++ [v]).
Proof.
  intros a x l v Hx (p & p' & P1 & P2 & P3 & P4) H0. unfold acc_push. rewrite H0.
  exists (if Qltb v p then v else p), (if Qltb p' v then v else p'). cbn [a_min a_max].
  rewrite (is_lt _ _ _ _ Hx P1), (is_lt _ _ _ _ P2 Hx).
  split; [destruct (Qltb v p); assumption|]. split.
  - destruct (Qltb_spec v p) as [L|L]; [|destruct (Qltb p' v); assumption].
    destruct (Qltb_spec p' v) as [L'|L']; [|assumption]. exfalso.
    destruct P3 as [(z & Z1 & Z2) _]. destruct P4 as [_ P4]. specialize (P4 z Z1). lra.
  - split; [apply least_app; [exact P3|apply least_single; reflexivity]|apply greatest_app; [exact P4|apply greatest_single; reflexivity]].
Qed.
