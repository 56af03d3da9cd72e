(** The interpolators of a window: results, and independence of earlier calls. *)
From Verif Require Import Base BaseProofs MathModel AxisModel InterpModel InterpSpec Interp1dModel Interp1dSpec.
From Verif Require Import InterpProofs InterpProofs2 InterpProofs3 InterpProofs4 InterpProofs5 InterpProofs6 InterpProofs7 InterpProps InterpProps2.
From Verif Require Import GridModel GridSpec FrameModel FrameSpec.
Open Scope nat_scope.

Lemma omap_ok {A B : Type} (f : A -> outcome B) (h : A -> B) l : (forall x, In x l -> f x = Ok (h x)) -> omap f l = Ok (map h l).
Proof. induction l as [|x t IH]; intro H; cbn; auto. rewrite (H x) by (left; auto). cbn. rewrite IH by (intros; apply H; right; auto). reflexivity. Qed.
Lemma omap_ext {A B : Type} (f g : A -> outcome B) l : (forall x, In x l -> f x = g x) -> omap f l = omap g l.
Proof. induction l as [|x t IH]; intro H; cbn; auto. rewrite (H x) by (left; auto). rewrite IH by (intros; apply H; right; auto). reflexivity. Qed.
Lemma omap_length {A B : Type} (f : A -> outcome B) l r : omap f l = Ok r -> length r = length l.
Proof. revert r. induction l as [|x t IH]; intros r H; cbn in H; [injection H as <-; reflexivity|]. apply obind_inv in H as (b & _ & H). apply obind_inv in H as (r' & E & H). injection H as <-. cbn. f_equal. apply IH, E. Qed.
Lemma without_nan_some {A : Type} (l : list A) : without_nan (map Some l) = Some l.
Proof. induction l as [|x t IH]; cbn; auto. rewrite IH. reflexivity. Qed.
Lemma without_nan_none {A : Type} (l : list (option A)) : In None l -> without_nan l = None.
Proof. induction l as [|[x|] t IH]; cbn; [tauto| |reflexivity]. intros [H|H]; [discriminate|]. rewrite IH by exact H. reflexivity. Qed.
Lemma without_nan_inv {A : Type} (l : list (option A)) r : without_nan l = Some r -> l = map Some r.
Proof. revert r. induction l as [|[x|] t IH]; cbn; intros r H; [injection H as <-; reflexivity| |discriminate]. destruct (without_nan t) as [r'|]; [|discriminate]. injection H as <-. cbn. f_equal. apply IH. reflexivity. Qed.
Lemma without_nan2 {A : Type} (l : list (list A)) : without_nan (map without_nan (map (map Some) l)) = Some l.
Proof. rewrite map_map. rewrite (map_ext _ Some) by (intro; apply without_nan_some). apply without_nan_some. Qed.

(** Result of a computation that also returns an object. *)
Definition res {S A : Type} (m : outcome (S * A)) : outcome A := olet (_, v) := m in Ok v.

(** ** One-dimensional interpolators *)
Section Packets.
  Variable pk : nat -> nat -> list nat.
  Hypothesis P : all_cells pk.

  Lemma call_res o xa ya x : res (call pk o xa ya x) = value pk o xa ya x.
  Proof. unfold call, value, res. destruct (compute_coefficients pk o xa ya) as [o'| |]; cbn; auto. destruct (interpolate_ o' xa ya x); reflexivity. Qed.
  Lemma call_used kind n o xa ya x o' v : used pk kind (fun m => m = n) o -> increasing xa -> length xa = n ->
    call pk o xa ya x = Ok (o', v) -> used pk kind (fun m => m = n) o'.
  Proof.
    intros U I L E. unfold call in E. apply obind_inv in E as (o1 & E1 & E). apply obind_inv in E as (r & _ & E). injection E as <- _.
    eapply used_again; eauto.
  Qed.
  Lemma used_mono kind (s s' : nat -> Prop) o : (forall n, s n -> s' n) -> used pk kind s o -> used pk kind s' o.
  Proof. intros H U. induction U; [apply used_new; auto|]. eapply used_again; eauto. Qed.
  (** Kinds whose result does not depend on earlier calls on as many points. *)
  Definition steady (kind : string) (n : nat) : Prop := kind = "c_spline_periodic"%string -> 4 <= n.
  Lemma value_steady kind n o1 o2 xa ya x : used pk kind (fun m => m = n) o1 -> used pk kind (fun m => m = n) o2 -> steady kind n -> increasing xa -> length xa = n -> length ya = n ->
    value pk o1 xa ya x = value pk o2 xa ya x.
  Proof.
    intros U1 U2 S I L L'. destruct (factory_1d kind) as [o0|w|w] eqn:F.
    - assert (G : forall o, used pk kind (fun m => m = n) o -> value pk o xa ya x = value pk o0 xa ya x).
      { intros o U. destruct (String.string_dec kind "c_spline_periodic") as [->|K].
        - apply C62_periodic_spline_partial; [|exact F|split; [congruence|split; [rewrite L; apply S; reflexivity|exact I]]]. eapply used_mono; [|exact U]. intros m ->. lia.
        - eapply C62_history_independent_partial; eauto. }
      rewrite (G o1 U1), (G o2 U2). reflexivity.
    - exfalso. clear -U1 F. induction U1; [congruence|auto].
    - exfalso. clear -U1 F. induction U1; [congruence|auto].
  Qed.
  Lemma columns_steady kind n xs x : steady kind n -> increasing xs -> length xs = n -> forall cols o1 o2, (forall c, In c cols -> length c = n) ->
    used pk kind (fun m => m = n) o1 -> used pk kind (fun m => m = n) o2 ->
    res (spline_columns pk o1 xs x cols) = res (spline_columns pk o2 xs x cols) /\
    forall o' r, spline_columns pk o1 xs x cols = Ok (o', r) -> used pk kind (fun m => m = n) o' /\ length r = length cols.
  Proof.
    intros S I L. induction cols as [|c t IH]; intros o1 o2 Hc U1 U2.
    - split; [reflexivity|]. intros o' r [= <- <-]. auto.
    - cbn [spline_columns]. assert (V := value_steady kind n o1 o2 xs c x U1 U2 S I L (Hc c (or_introl eq_refl))). rewrite <- !call_res in V.
      destruct (call pk o1 xs c x) as [[a1 v1]|w|w] eqn:E1, (call pk o2 xs c x) as [[a2 v2]|w'|w'] eqn:E2; cbn in V; try discriminate; cbn [obind res].
      + injection V as <-. assert (W1 := call_used _ _ _ _ _ _ _ _ U1 I L E1). assert (W2 := call_used _ _ _ _ _ _ _ _ U2 I L E2).
        destruct (IH a1 a2 (fun c' H => Hc c' (or_intror H)) W1 W2) as [R N].
        destruct (spline_columns pk a1 xs x t) as [[b1 r1]|w|w], (spline_columns pk a2 xs x t) as [[b2 r2]|w'|w']; cbn in R; try discriminate; cbn [obind]; split; try discriminate; try congruence.
        * injection R as <-. reflexivity.
        * intros o' r [= <- <-]. destruct (N b1 r1 eq_refl) as [N1 N2]. split; [exact N1|]. cbn. congruence.
      + split; [congruence|discriminate].
      + split; [congruence|discriminate].
  Qed.

  (** The value is on the curve. *)
  Lemma curve_value kind s o xa ya x : In kind ["linear"; "steffen"; "c_spline"]%string -> used pk kind s o -> data (needs kind) xa ya -> ~ outside xa x ->
    exists v, value pk o xa ya x = Ok (Some v) /\ on_curve kind xa ya x v.
  Proof.
    intros K U D No. assert (D' := D). destruct D' as (L & N & I). assert (N2 : 2 <= length xa) by (destruct K as [<-|[<-|[<-|[]]]]; cbn in N; lia).
    destruct (cell_exists xa x I N2) as [O|(i & C)]; [contradiction|].
    destruct K as [<-|[<-|[<-|[]]]]; unfold on_curve, needs in *; cbn [String.eqb Ascii.eqb Bool.eqb] in *.
    - destruct (C49_linear pk s o xa ya x i U D C) as (v & E & _). exists v. split; [exact E|]. intros i' C'. rewrite (proj1 (value_linear pk s o xa ya x U)) in E. destruct (linear_cell xa ya x i' D C') as [E' _].
      rewrite E in E'. injection E' as ->. unfold chord, lerp. assert (X := cell_two 2 xa ya x i' D C'). field. lra.
    - destruct (C50_steffen_slopes pk s o xa ya x i U D C) as (v & v' & E & _). exists v. split; [exact E|]. intros i' C'.
      destruct (C50_steffen_slopes pk s o xa ya x i' U D C') as (w & w' & E' & _ & H & _). rewrite E in E'. injection E' as ->. exact H.
    - destruct (C51_natural_spline pk s o xa ya U D) as (k & A & B & H). destruct (H x i C) as (v & v' & E & _). exists v. split; [exact E|]. exists k. split; [exact A|]. split; [exact B|].
      intros i' C'. destruct (H x i' C') as (w & w' & E' & _ & W & _). rewrite E in E'. injection E' as ->. exact W.
  Qed.
  Lemma curve_passes kind s o xa ya : In kind ["linear"; "steffen"; "c_spline"]%string -> used pk kind s o -> data (needs kind) xa ya -> passes (value pk o xa ya) xa ya.
  Proof. intros K U D. destruct K as [<-|[<-|[<-|[]]]]; cbn in D; [eapply C48_linear|eapply C48_steffen|eapply C48_cspline]; eauto. Qed.

  Lemma columns_value kind n xs x cols : In kind ["linear"; "steffen"; "c_spline"]%string -> needs kind <= n -> increasing xs -> length xs = n -> ~ outside xs x ->
    (forall c, In c cols -> length c = n) -> forall o, used pk kind (fun m => m = n) o ->
    exists o' w, spline_columns pk o xs x cols = Ok (o', map Some w) /\ used pk kind (fun m => m = n) o' /\
      Forall2 (fun c v => on_curve kind xs c x v /\ forall i, i < n -> (x == at_ xs i)%Q -> (v == at_ c i)%Q) cols w.
  Proof.
    intros K Hn I L No. induction cols as [|c t IH]; intros Hc o U.
    - exists o, []. cbn. auto.
    - assert (Lc := Hc c (or_introl eq_refl)). assert (D : data (needs kind) xs c) by (split; [congruence|]; split; [lia|exact I]).
      destruct (curve_value kind _ o xs c x K U D No) as (v & V & OC). cbn [spline_columns]. assert (E := call_res o xs c x). rewrite V in E.
      destruct (call pk o xs c x) as [[o1 v1]|w|w] eqn:E1; try discriminate. cbn in E. injection E as ->. cbn [obind].
      destruct (IH (fun c' H => Hc c' (or_intror H)) o1 (call_used _ _ _ _ _ _ _ _ U I L E1)) as (o' & w & -> & U' & F). cbn [obind]. exists o', (v :: w). split; [reflexivity|]. split; [exact U'|].
      constructor; [|exact F]. split; [exact OC|]. intros i Hi Ex. destruct (curve_passes kind _ o xs c K U D i x ltac:(lia) Ex) as (v' & V' & Q). rewrite V in V'. injection V' as <-. exact Q.
  Qed.

  (** ** Cubic splines as used by [Bicubic] *)
  Definition cs_used (st : cspline_state) : Prop := used pk "c_spline" any_size (ICSpline st).
  Lemma cs_init : cs_used cspline_init. Proof. apply used_new. reflexivity. Qed.
  Lemma slopes_used st xa ya st' d : cs_used st -> increasing xa -> cspline_slopes st xa ya = Ok (st', d) -> cs_used st'.
  Proof.
    intros U I E. unfold cspline_slopes in E. apply obind_inv in E as (s & E1 & E). apply obind_inv in E as (d' & _ & E). injection E as <- _.
    eapply used_again; [exact U|exact I|exact Logic.I|]. cbn [compute_coefficients]. rewrite E1. reflexivity.
  Qed.
  Lemma slopes_res st xa ya : xa <> [] -> res (cspline_slopes st xa ya) = omap (derivative pk (ICSpline st) xa ya) xa.
  Proof.
    intro N. unfold cspline_slopes, res. destruct (cspline_compute st xa ya) as [s|w|w] eqn:E; cbn [obind].
    - rewrite (omap_ext (derivative pk (ICSpline st) xa ya) (cspline_deriv (csx s) xa ya)); [destruct (omap _ xa); reflexivity|]. intros x _. unfold derivative. cbn [compute_coefficients]. rewrite E. reflexivity.
    - destruct xa as [|x t]; [contradiction|]. cbn [omap]. unfold derivative at 1. cbn [compute_coefficients]. rewrite E. reflexivity.
    - destruct xa as [|x t]; [contradiction|]. cbn [omap]. unfold derivative at 1. cbn [compute_coefficients]. rewrite E. reflexivity.
  Qed.
  Lemma slopes_steady st1 st2 xa ya : cs_used st1 -> cs_used st2 -> increasing xa -> xa <> [] -> res (cspline_slopes st1 xa ya) = res (cspline_slopes st2 xa ya).
  Proof.
    intros U1 U2 I N. rewrite !slopes_res by exact N. apply omap_ext. intros x _.
    destruct (C62_history_independent_partial pk "c_spline" any_size (ICSpline st1) (ICSpline cspline_init) xa ya x P ltac:(discriminate) U1 eq_refl I) as [_ ->].
    destruct (C62_history_independent_partial pk "c_spline" any_size (ICSpline st2) (ICSpline cspline_init) xa ya x P ltac:(discriminate) U2 eq_refl I) as [_ ->]. reflexivity.
  Qed.
  Lemma all_steady xa : increasing xa -> xa <> [] -> forall lines st1 st2, cs_used st1 -> cs_used st2 ->
    res (cspline_all st1 xa lines) = res (cspline_all st2 xa lines) /\ forall st' r, cspline_all st1 xa lines = Ok (st', r) -> cs_used st'.
  Proof.
    intros I N. induction lines as [|l t IH]; intros st1 st2 U1 U2; cbn [cspline_all].
    - split; [reflexivity|]. intros st' r [= <- _]. exact U1.
    - assert (V := slopes_steady st1 st2 xa l U1 U2 I N).
      destruct (cspline_slopes st1 xa l) as [[a1 v1]|w|w] eqn:E1, (cspline_slopes st2 xa l) as [[a2 v2]|w'|w'] eqn:E2; cbn in V; try discriminate; cbn [obind].
      + injection V as <-. destruct (IH a1 a2 (slopes_used _ _ _ _ _ U1 I E1) (slopes_used _ _ _ _ _ U2 I E2)) as [R S].
        destruct (cspline_all a1 xa t) as [[b1 r1]|w|w], (cspline_all a2 xa t) as [[b2 r2]|w'|w']; cbn in R; try discriminate; cbn [obind]; split; try discriminate; try congruence.
        * injection R as <-. reflexivity.
        * intros st' r [= <- _]. eapply S. reflexivity.
      + cbn. split; [congruence|discriminate].
      + cbn. split; [congruence|discriminate].
  Qed.
  Lemma compute_steady st1 st2 xa ya za : increasing xa -> increasing ya -> xa <> [] -> ya <> [] -> cs_used st1 -> cs_used st2 ->
    res (bicubic_compute st1 xa ya za) = res (bicubic_compute st2 xa ya za) /\ forall st' d, bicubic_compute st1 xa ya za = Ok (st', d) -> cs_used st'.
  Proof.
    intros Ix Iy Nx Ny U1 U2. unfold bicubic_compute. destruct (check_sizes2 xa ya za); cbn [obind]; [|split; [reflexivity|discriminate]|split; [reflexivity|discriminate]].
    destruct (all_steady xa Ix Nx za st1 st2 U1 U2) as [R S].
    destruct (cspline_all st1 xa za) as [[a1 zx]|w|w] eqn:E1, (cspline_all st2 xa za) as [[a2 zx2]|w'|w'] eqn:E2; cbn in R; try discriminate; cbn [obind]; try (split; [cbn; congruence|discriminate]).
    injection R as <-. assert (V1 := S _ _ eq_refl). assert (V2 : cs_used a2) by (eapply (all_steady xa Ix Nx za st2 st1 U2 U1); exact E2). clear S E1 E2.
    destruct (omap (mat_row za) (seq 0 (length xa))) as [rows|w|w]; cbn [obind]; try (split; [cbn; congruence|discriminate]).
    destruct (all_steady ya Iy Ny rows a1 a2 V1 V2) as [R S].
    destruct (cspline_all a1 ya rows) as [[b1 zy]|w|w] eqn:E1, (cspline_all a2 ya rows) as [[b2 zy2]|w'|w'] eqn:E2; cbn in R; try discriminate; cbn [obind]; try (split; [cbn; congruence|discriminate]).
    injection R as <-. assert (W1 := S _ _ eq_refl). assert (W2 : cs_used b2) by (eapply (all_steady ya Iy Ny rows a2 a1 V2 V1); exact E2). clear S E1 E2.
    destruct (without_nan (map without_nan zy)) as [zy'|]; [|split; [reflexivity|intros st' d [= <- _]; exact W1]].
    destruct (columns_of (length ya) zy') as [cols|w|w]; cbn [obind]; try (split; [cbn; congruence|discriminate]).
    destruct (all_steady xa Ix Nx cols b1 b2 W1 W2) as [R S].
    destruct (cspline_all b1 xa cols) as [[c1 zxy]|w|w] eqn:E1, (cspline_all b2 xa cols) as [[c2 zxy2]|w'|w'] eqn:E2; cbn in R; try discriminate; cbn [obind]; try (split; [cbn; congruence|discriminate]).
    injection R as <-. split; [reflexivity|]. intros st' d [= <- _]. eapply S. reflexivity.
  Qed.

  (** The slopes are those of a natural spline. *)
  Lemma slopes_value st xa ya : cs_used st -> data 4 xa ya -> exists st' d, cspline_slopes st xa ya = Ok (st', map Some d) /\ cs_used st' /\ length d = length xa /\ natural_slopes xa ya (at_ d).
  Proof.
    intros U D. assert (D' := D). destruct D' as (L & N & I). destruct (C51_natural_spline pk any_size (ICSpline st) xa ya U D) as (k & A & B & H).
    assert (Hd : forall i, i < length xa -> exists v, derivative pk (ICSpline st) xa ya (at_ xa i) = Ok (Some v) /\
      (i = 0 -> (v == cubic' (at_ xa 0) (k 0%nat) (at_ xa 0))%Q) /\ forall j, i = S j -> (v == cubic' (at_ xa j) (k j) (at_ xa i))%Q).
    { intros i Hi. destruct (node_cell xa i I Hi ltac:(lia)) as (j & C & J). destruct (H (at_ xa i) j C) as (v & v' & _ & E & _ & V). exists v'. split; [exact E|]. split.
      - intros ->. destruct J as [J|[_ ->]]; [discriminate|exact V].
      - intros j' ->. destruct J as [J|[J _]]; [|discriminate]. injection J as <-. exact V. }
    set (dv := fun x => match derivative pk (ICSpline st) xa ya x with Ok (Some v) => v | _ => 0%Q end).
    assert (Ex : omap (derivative pk (ICSpline st) xa ya) xa = Ok (map Some (map dv xa))).
    { rewrite map_map. apply omap_ok. intros x Hx. destruct (In_nth xa x 0%Q Hx) as (i & Hi & <-). destruct (Hd i Hi) as (v & E & _). unfold at_ in E. unfold dv. rewrite E. reflexivity. }
    assert (Nil : xa <> []) by (destruct xa; [cbn in N; lia|discriminate]).
    rewrite <- (slopes_res st xa ya Nil) in Ex. destruct (cspline_slopes st xa ya) as [[st' d]|w|w] eqn:E; cbn in Ex; try discriminate. injection Ex as ->.
    exists st', (map dv xa). split; [reflexivity|]. split; [eapply slopes_used; eauto|]. split; [apply map_length|].
    assert (Hat : forall i, i < length xa -> at_ (map dv xa) i = dv (at_ xa i)).
    { intros i Hi. unfold at_. rewrite (nth_indep (map dv xa) 0%Q (dv 0%Q)) by (rewrite map_length; exact Hi). apply map_nth. }
    exists k. split; [exact A|]. split; [exact B|]. intros i Hi. rewrite !Hat by lia. unfold dv. split.
    - destruct (Hd i ltac:(lia)) as (v & Ev & V0 & VS). rewrite Ev. destruct i as [|j]; [symmetry; apply V0; reflexivity|]. rewrite (VS j eq_refl). symmetry. apply A. exact Hi.
    - destruct (Hd (S i) ltac:(lia)) as (v & Ev & _ & VS). rewrite Ev. symmetry. apply VS. reflexivity.
  Qed.
  Lemma all_value xa lines : (forall l, In l lines -> data 4 xa l) -> forall st, cs_used st -> exists st' ds, cspline_all st xa lines = Ok (st', map (map Some) ds) /\ cs_used st' /\
    Forall2 (fun l d => length d = length xa /\ natural_slopes xa l (at_ d)) lines ds.
  Proof.
    induction lines as [|l t IH]; intros D st U; cbn [cspline_all].
    - exists st, []. auto.
    - destruct (slopes_value st xa l U (D l (or_introl eq_refl))) as (s1 & d & -> & U1 & Ld & Nd). cbn [obind].
      destruct (IH (fun l' H => D l' (or_intror H)) s1 U1) as (s2 & ds & -> & U2 & F). cbn [obind]. exists s2, (d :: ds). split; [reflexivity|]. split; [exact U2|]. constructor; auto.
  Qed.
End Packets.
