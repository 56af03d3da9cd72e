(** Interpolator objects: lemmas. *)
From Verif Require Import Base BaseProofs InterpModel InterpSpec Interp1dModel Interp1dSpec InterpProofs InterpProofs2 InterpProofs3 InterpProofs4.
Open Scope nat_scope.

Lemma check_inv : forall m xa ya u, check_sizes m xa ya = Ok u -> length xa = length ya /\ m <= length xa.
Proof.
  intros m xa ya u. unfold check_sizes. destruct (Nat.eqb_spec (length xa) (length ya)); cbn [negb]; [|discriminate].
  destruct (Nat.ltb_spec (length xa) m); [discriminate|]. auto.
Qed.
Lemma obind_inv : forall (A B : Type) (m : outcome A) (f : A -> outcome B) r, obind m f = Ok r -> exists a, m = Ok a /\ f a = Ok r.
Proof. intros A B [a|w|w] f r H; cbn in H; try discriminate. exists a. auto. Qed.
Lemma bwrite_inv : forall b i v b', bwrite b i v = Ok b' -> bsize b' = bsize b.
Proof. intros b i v b'. unfold bwrite. destruct (i <? bsize b); [|discriminate]. intros [= <-]. reflexivity. Qed.
Lemma mwrite_inv : forall a i j v a', mwrite a i j v = Ok a' -> msize a' = msize a.
Proof. intros a i j v a'. unfold mwrite. destruct (_ && _); [|discriminate]. intros [= <-]. reflexivity. Qed.
Lemma ofor_keeps : forall (S : Type) (P : S -> Prop) (f : nat -> S -> outcome S) n from s s', (forall i s s', f i s = Ok s' -> P s -> P s') ->
  ofor from n f s = Ok s' -> P s -> P s'.
Proof.
  intros S P f. induction n as [|n IH]; intros from s s' Hf H Ps; cbn [ofor] in H; [injection H as <-; exact Ps|].
  apply obind_inv in H as (s1 & E & H). eapply IH; eauto.
Qed.
Lemma odown_keeps : forall (S : Type) (P : S -> Prop) (f : nat -> S -> outcome S) n s s', (forall i s s', f i s = Ok s' -> P s -> P s') ->
  odown n f s = Ok s' -> P s -> P s'.
Proof.
  intros S P f. induction n as [|n IH]; intros s s' Hf H Ps; cbn [odown] in H; [injection H as <-; exact Ps|].
  apply obind_inv in H as (s1 & E & H). eapply IH; eauto.
Qed.
(** Opens one step of a successful run, keeping the sizes. *)
Ltac open1 H :=
  match type of H with
  | obind _ _ = Ok _ => let a := fresh "a" in let E := fresh "E" in apply obind_inv in H as (a & E & H)
  end.
Ltac sizes :=
  repeat match goal with
  | E : bwrite _ _ _ = Ok _ |- _ => apply bwrite_inv in E
  | E : mwrite _ _ _ _ = Ok _ |- _ => apply mwrite_inv in E
  end.

(** ** The periodic spline keeps the sizes of its buffers *)
Lemma solve_cyclic_sizes : forall A b x al ga de c z x' al' ga' de' c' z',
  solve_cyclic A b x al ga de c z = Ok (x', al', ga', de', c', z') ->
  bsize x' = bsize x /\ bsize al' = bsize al /\ bsize ga' = bsize ga /\ bsize de' = bsize de /\ bsize c' = bsize c /\ bsize z' = bsize z.
Proof.
  intros A b x al ga de c z x' al' ga' de' c' z' H. unfold solve_cyclic in H. destruct (msize A =? 1).
  - repeat open1 H. injection H as <- <- <- <- <- <-. sizes. repeat split; congruence.
  - do 8 open1 H. destruct (msize A =? 2); [discriminate|]. open1 H. destruct a7 as [[al2 ga2] de2].
    assert (K : bsize al2 = bsize a0 /\ bsize ga2 = bsize a3 /\ bsize de2 = bsize a6).
    { apply (ofor_keeps _ (fun s => bsize (fst (fst s)) = bsize a0 /\ bsize (snd (fst s)) = bsize a3 /\ bsize (snd s) = bsize a6) _ _ _ _ _) in E7; [exact E7| |cbn; auto].
      intros i [[u v] w] [[u' v'] w'] Hs (K1 & K2 & K3). cbn [fst snd] in *. unfold cyclic_step in Hs. repeat open1 Hs. injection Hs as <- <- <-. sizes. repeat split; congruence. }
    repeat open1 H. injection H as <- <- <- <- <- <-. destruct K as (K1 & K2 & K3).
    repeat match goal with
    | E : ofor _ _ _ ?s = Ok ?t |- _ => apply (ofor_keeps _ (fun q => bsize q = bsize s)) in E;
        [|let i := fresh in let u := fresh in let v := fresh in let Hs := fresh in intros i u v Hs; repeat open1 Hs; sizes; congruence|reflexivity]
    | E : odown _ _ ?s = Ok ?t |- _ => apply (odown_keeps _ (fun q => bsize q = bsize s)) in E;
        [|let i := fresh in let u := fresh in let v := fresh in let Hs := fresh in intros i u v Hs; repeat open1 Hs; sizes; congruence|reflexivity]
    end.
    sizes. repeat split; congruence.
Qed.
Lemma pspline_compute_inv : forall st xa ya st', pspline_compute st xa ya = Ok st' -> pspline_inv st ->
  pspline_inv st' /\ bsize (psx st') = Nat.max (bsize (psx st)) (length xa).
Proof.
  intros st xa ya st' H Inv. unfold pspline_compute in H. open1 H. apply check_inv in E as [L N]. unfold pspline_min_size in N. cbv zeta in H.
  set (st0 := if bsize (psx st) <? length xa then _ else st) in H.
  assert (Inv0 : pspline_inv st0 /\ bsize (psx st0) = Nat.max (bsize (psx st)) (length xa)).
  { unfold st0. destruct (Nat.ltb_spec (bsize (psx st)) (length xa)) as [E|E]; [|split; [exact Inv|lia]]. split; [|cbn; lia]. right. cbn. repeat split; lia. }
  clearbody st0. destruct Inv0 as [Inv0 E0].
  open1 H. destruct a0 as [A0 b0].
  assert (K : msize A0 = msize (psA st0) /\ bsize b0 = bsize (psb st0)).
  { apply (ofor_keeps _ (fun s => msize (fst s) = msize (psA st0) /\ bsize (snd s) = bsize (psb st0))) in E; [exact E| |cbn; auto].
    intros i [u v] [u' v'] Hs (K1 & K2). cbn [fst snd] in *. unfold pspline_row in Hs. repeat open1 Hs. injection Hs as <- <-. sizes. split; congruence. }
  do 8 open1 H. do 4 open1 H. open1 H. destruct a12 as [[[[[x al] ga] de] c] z]. apply solve_cyclic_sizes in E13. do 2 open1 H. injection H as <-.
  destruct K as [K1 K2]. destruct E13 as (Z1 & Z2 & Z3 & Z4 & Z5 & Z6). sizes. unfold pspline_inv in *. cbn [psx psA psb ps_alpha ps_gamma ps_delta psc psz].
  assert (X : bsize a13 = bsize (psx st0)) by congruence. split; [|lia]. rewrite E15, Z1. destruct Inv0 as [Z|(I1 & I2 & I3 & I4 & I5 & I6 & I7 & I8)]; [lia|].
  right. repeat split; try congruence. 
Qed.

(** ** Used objects satisfy their invariants *)
Lemma used_linear : forall pk s o, used pk "linear" s o -> o = ILinear.
Proof. intros pk s o U. induction U as [o E|o xa ya o' U IH I Hs E]; [injection E as <-; reflexivity|]. subst o. cbn in E. open1 E. congruence. Qed.
Lemma used_steffen : forall pk s o, used pk "steffen" s o -> exists yp, o = ISteffen yp.
Proof. intros pk s o U. induction U as [o E|o xa ya o' U (yp & ->) I Hs E]; [injection E as <-; eauto|]. cbn in E. open1 E. injection E as <-. eauto. Qed.
Lemma used_polynomial : forall pk s o, used pk "polynomial" s o -> exists w, o = IPolynomial w.
Proof. intros pk s o U. induction U as [o E|o xa ya o' U (yp & ->) I Hs E]; [injection E as <-; eauto|]. cbn in E. open1 E. injection E as <-. eauto. Qed.
Lemma used_cspline : forall pk s o, used pk "c_spline" s o -> exists st, o = ICSpline st /\ cspline_inv st.
Proof.
  intros pk s o U. induction U as [o E|o xa ya o' U (st & -> & Inv) I Hs E].
  - injection E as <-. exists cspline_init. split; [reflexivity|]. left. reflexivity.
  - cbn in E. open1 E. injection E as <-. assert (D : data 4 xa ya).
    { unfold cspline_compute in E0. open1 E0. apply check_inv in E as [L N]. split; [exact L|]. split; [exact N|exact I]. }
    destruct (cspline_compute_ok st xa ya Inv D) as (st' & E' & Inv' & _). rewrite E' in E0. injection E0 as <-. eauto.
Qed.
Lemma used_akima : forall pk s o, used pk "akima" s o -> exists st, o = IAkima st /\ akima_inv st.
Proof.
  intros pk s o U. induction U as [o E|o xa ya o' U (st & -> & Inv) I Hs E].
  - injection E as <-. exists akima_init. split; [reflexivity|]. unfold akima_inv. cbn. lia.
  - cbn in E. open1 E. injection E as <-. assert (D : data 5 xa ya).
    { unfold akima_compute in E0. open1 E0. apply check_inv in E as [L N]. split; [exact L|]. split; [exact N|exact I]. }
    destruct (akima_compute_ok false st xa ya Inv D) as (st' & E' & Inv' & _). rewrite E' in E0. injection E0 as <-. eauto.
Qed.
Lemma used_akima_periodic : forall pk s o, used pk "akima_periodic" s o -> exists st, o = IAkimaPeriodic st /\ akima_inv st.
Proof.
  intros pk s o U. induction U as [o E|o xa ya o' U (st & -> & Inv) I Hs E].
  - injection E as <-. exists akima_init. split; [reflexivity|]. unfold akima_inv. cbn. lia.
  - cbn in E. open1 E. injection E as <-. assert (D : data 5 xa ya).
    { unfold akima_compute in E0. open1 E0. apply check_inv in E as [L N]. split; [exact L|]. split; [exact N|exact I]. }
    destruct (akima_compute_ok true st xa ya Inv D) as (st' & E' & Inv' & _). rewrite E' in E0. injection E0 as <-. eauto.
Qed.
Lemma used_pspline : forall pk n o, used pk "c_spline_periodic" (fun k => k <= n) o ->
  exists st, o = ICSplinePeriodic st /\ pspline_inv st /\ bsize (psx st) <= n.
Proof.
  intros pk n o U. induction U as [o E|o xa ya o' U (st & -> & Inv & Hn) I Hs E].
  - injection E as <-. exists pspline_init. split; [reflexivity|]. split; [left; reflexivity|]. cbn. lia.
  - cbn in E. open1 E. injection E as <-. apply pspline_compute_inv in E0 as [Inv' Hm]; [|exact Inv]. exists a. split; [reflexivity|]. split; [exact Inv'|]. lia.
Qed.

(** ** Results of a call on a used object *)
Lemma value_linear : forall pk s o xa ya x, used pk "linear" s o -> value pk o xa ya x = linear xa ya x /\ derivative pk o xa ya x = linear_derivative xa ya x.
Proof.
  intros pk s o xa ya x U. apply used_linear in U. subst o. unfold value, derivative, linear, linear_derivative. cbn [compute_coefficients].
  destruct (check_sizes linear_min_size xa ya); split; reflexivity.
Qed.
Lemma value_steffen : forall pk s o xa ya x i, used pk "steffen" s o -> data 3 xa ya -> in_cell xa x i ->
  exists v v', value pk o xa ya x = Ok (Some v) /\ derivative pk o xa ya x = Ok (Some v') /\
    (v == hermite (at_ xa i) (at_ xa (S i)) (at_ ya i) (at_ ya (S i)) (steffen_slope xa ya i) (steffen_slope xa ya (S i)) x)%Q /\
    (v' == hermite' (at_ xa i) (at_ xa (S i)) (at_ ya i) (at_ ya (S i)) (steffen_slope xa ya i) (steffen_slope xa ya (S i)) x)%Q.
Proof.
  intros pk s o xa ya x i U D C. apply used_steffen in U as (yp & ->).
  destruct (steffen_result yp xa ya x i D C) as (st' & v & v' & E & E' & H & H'). exists v, v'.
  unfold value, derivative. cbn [compute_coefficients]. unfold steffen, steffen_derivative in E, E'. open1 E. rewrite E0 in *. cbn [obind interpolate_ derivative_] in *.
  open1 E. open1 E'. injection E as _ ->. injection E' as _ ->. auto.
Qed.
Lemma value_cspline : forall pk s o xa ya, used pk "c_spline" s o -> data 4 xa ya ->
  forall x, (outside xa x -> value pk o xa ya x = Ok None /\ derivative pk o xa ya x = Ok None) /\
    forall i, in_cell xa x i -> exists v v', value pk o xa ya x = Ok (Some v) /\ derivative pk o xa ya x = Ok (Some v') /\
    (v == cubic (at_ xa i) (piece xa ya (moment xa ya) i) x)%Q /\ (v' == cubic' (at_ xa i) (piece xa ya (moment xa ya) i) x)%Q.
Proof.
  intros pk s o xa ya U D x. apply used_cspline in U as (st & -> & Inv). destruct (cspline_compute_ok st xa ya Inv D) as (st' & E & Inv' & R).
  unfold value, derivative. cbn [compute_coefficients]. rewrite E. cbn [obind interpolate_ derivative_]. destruct D as (L & N & I). split.
  - intro O. apply cspline_eval_outside; auto. lia.
  - intros i C. apply cspline_eval; auto.
Qed.
Lemma value_pspline : forall pk n o xa ya, used pk "c_spline_periodic" (fun k => k <= n) o -> data 4 xa ya -> n = length xa ->
  forall x, (outside xa x -> value pk o xa ya x = Ok None /\ derivative pk o xa ya x = Ok None) /\
    forall i, in_cell xa x i -> exists v v', value pk o xa ya x = Ok (Some v) /\ derivative pk o xa ya x = Ok (Some v') /\
    (v == cubic (at_ xa i) (piece xa ya (pmoment xa ya) i) x)%Q /\ (v' == cubic' (at_ xa i) (piece xa ya (pmoment xa ya) i) x)%Q.
Proof.
  intros pk n o xa ya U D -> x. apply used_pspline in U as (st & -> & Inv & Hn). destruct (pspline_compute_ok st xa ya Inv Hn D) as (st' & E & Inv' & Hz & R).
  unfold value, derivative. cbn [compute_coefficients]. rewrite E. cbn [obind interpolate_ derivative_]. destruct D as (L & N & I). split.
  - intro O. apply cspline_eval_outside; auto. lia.
  - intros i C. apply cspline_eval; auto.
Qed.
Definition akima_kind (per : bool) : string := if per then "akima_periodic" else "akima".
Lemma value_akima : forall pk s per o xa ya, used pk (akima_kind per) s o -> data 5 xa ya ->
  forall x, (outside xa x -> value pk o xa ya x = Throw "NaN" /\ derivative pk o xa ya x = Throw "NaN") /\
    forall i, in_cell xa x i -> exists v v', value pk o xa ya x = Ok (Some v) /\ derivative pk o xa ya x = Ok (Some v') /\
    (v == hermite (at_ xa i) (at_ xa (S i)) (at_ ya i) (at_ ya i + (at_ xa (S i) - at_ xa i) * akima_line per xa ya i)
            (akima_node_slope per xa ya i) (akima_node_slope per xa ya (S i)) x)%Q /\
    (v' == hermite' (at_ xa i) (at_ xa (S i)) (at_ ya i) (at_ ya i + (at_ xa (S i) - at_ xa i) * akima_line per xa ya i)
            (akima_node_slope per xa ya i) (akima_node_slope per xa ya (S i)) x)%Q.
Proof.
  intros pk s per o xa ya U D x. assert (Uo : exists st, akima_inv st /\ o = (if per then IAkimaPeriodic st else IAkima st)).
  { destruct per; cbn in U; [apply used_akima_periodic in U|apply used_akima in U]; destruct U as (st & -> & Inv); exists st; auto. }
  destruct Uo as (st & Inv & ->). split.
  - intro O. destruct (akima_compute_ok per st xa ya Inv D) as (st' & E & _). destruct D as (L & N & I).
    unfold value, derivative. destruct per; cbn [compute_coefficients]; rewrite E; cbn [obind interpolate_ derivative_]; unfold akima_interp, akima_deriv; rewrite (search_outside xa x I ltac:(lia) O); cbn [obind]; auto.
  - intros i C. destruct (akima_result per st xa ya x i Inv D C) as (st' & v & v' & E & E' & _ & H & H'). exists v, v'.
    unfold akima, akima_derivative in E, E'. open1 E. rewrite E0 in E'. cbn [obind] in E'. open1 E. open1 E'. injection E as <- ->. injection E' as ->.
    unfold value, derivative. destruct per; cbn [compute_coefficients]; rewrite E0; cbn [obind interpolate_ derivative_]; auto.
Qed.
