(** C61: the loess filter. *)
From Verif Require Import Base BaseProofs MathModel MathProofs FillModel FillSpec FillProofs FillProps LoessModel LoessSpec.
Open Scope Z_scope.

Lemma coordinate_ok : forall a i, 0 <= i < zlen a -> exists v, coordinate a i = Ok v.
Proof.
  intros a i H. unfold coordinate, znth. destruct (Z.ltb_spec i 0); [lia|]. destruct (nth_error a (Z.to_nat i)) eqn:E; [eauto|].
  apply nth_error_None in E. unfold zlen in H. lia.
Qed.

(** The window indexes, as a set. *)
Lemma frame_in : forall index size angle h, 0 <= h -> (if angle : bool then 1 <= size else 2 <= size) ->
  exists r, frame_index index size angle (h * 2 + 1) = Ok r /\ r <> [] /\
    hd 0 r = window_index angle size (index - h) /\
    forall w, In w r <-> 0 <= w < size /\ exists d, - h <= d <= h /\ w = window_index angle size (index + d).
Proof.
  intros index size angle h Hh Hs. destruct (C47_frame_total index size angle (h * 2 + 1) Hs) as (r & E). exists r. split; [exact E|].
  assert (Qh : Z.quot (h * 2 + 1) 2 = h) by (rewrite Z.quot_div_nonneg by lia; Z.div_mod_to_equations; lia).
  assert (G : length r = Z.to_nat (h * 2 + 1) /\ forall k v, nth_error r k = Some v ->
     v = window_index angle size (index - h + Z.of_nat k) /\ 0 <= v < size).
  { destruct angle.
    - destruct (C47_frame_wrap index size (h * 2 + 1) r Hs ltac:(lia) E) as [L N]. rewrite Qh in N. auto.
    - destruct (C47_frame_reflect index size (h * 2 + 1) r Hs ltac:(lia) E) as [L N]. rewrite Qh in N. auto. }
  destruct G as [L N]. split; [destruct r; [cbn in L; lia|congruence]|].
  assert (At : forall k, (k < length r)%nat -> nth_error r k = Some (window_index angle size (index - h + Z.of_nat k))).
  { intros k Hk. destruct (nth_error r k) as [v|] eqn:Ek; [|apply nth_error_None in Ek; lia]. destruct (N k v Ek) as [-> _]. reflexivity. }
  split.
  { specialize (At 0%nat ltac:(lia)). destruct r; [discriminate|]. cbn in At |- *. replace (index - h + 0) with (index - h) in At by lia. congruence. }
  intro w. split.
  - intros Hw. apply In_nth_error in Hw. destruct Hw as (k & Ek). destruct (N k w Ek) as [Ew Rw]. split; [exact Rw|].
    assert (k < length r)%nat by (apply nth_error_Some; congruence). exists (Z.of_nat k - h). split; [lia|]. rewrite Ew. f_equal. lia.
  - intros (_ & d & Hd & Ew). apply nth_error_In with (n := Z.to_nat (d + h)). rewrite At by lia. rewrite Ew. do 2 f_equal. lia.
Qed.

Section Loess.
  Variable tricube : Q -> Q.
  Hypothesis tri_nonneg : forall d, (0 <= tricube d)%Q.
  Variables (xa ya : list Q) (x_angle : bool) (nx ny : Z) (grid : Z -> Z -> option Q).
  Hypothesis Hs : sizes_ok x_angle xa ya.

  (** Accumulated value and weight: bounded combination of the contributing values. *)
  Lemma loop_y_spec : forall lo hi x y xi wx wys acc,
    (forall wy, In wy wys -> 0 <= wy < zlen ya) ->
    (forall wy zi yi, In wy wys -> grid wx wy = Some zi -> coordinate ya wy = Ok yi -> ~ (tricube (dist2 nx ny x y xi yi) == 0)%Q -> (lo <= zi <= hi)%Q) ->
    (0 <= snd acc)%Q -> (lo * snd acc <= fst acc <= hi * snd acc)%Q ->
    exists acc', loop_y tricube ya nx ny grid x y xi wx wys acc = Ok acc' /\ (snd acc <= snd acc')%Q /\ (lo * snd acc' <= fst acc' <= hi * snd acc')%Q /\
      ((exists wy zi yi, In wy wys /\ grid wx wy = Some zi /\ coordinate ya wy = Ok yi /\ ~ (tricube (dist2 nx ny x y xi yi) == 0)%Q) -> (snd acc < snd acc')%Q) /\
      ((forall wy zi yi, In wy wys -> grid wx wy = Some zi -> coordinate ya wy = Ok yi -> (tricube (dist2 nx ny x y xi yi) == 0)%Q) -> (snd acc' == snd acc)%Q).
  Proof.
    intros lo hi x y xi wx. induction wys as [|wy t IH]; intros acc R B P H; cbn [loop_y].
    - exists acc. split; [reflexivity|]. split; [lra|]. split; [exact H|]. split; [intros (wy & _ & _ & [] & _)|reflexivity].
    - destruct (grid wx wy) as [zi|] eqn:G.
      + destruct (coordinate_ok ya wy (R wy (or_introl eq_refl))) as (yi & Ey). rewrite Ey. cbn [obind].
        set (w := tricube (dist2 nx ny x y xi yi)). pose proof (tri_nonneg (dist2 nx ny x y xi yi)) as W. fold w in W.
        destruct (IH (fst acc + w * zi, snd acc + w)%Q) as (acc' & E & A1 & A2 & A3 & A4); cbn [fst snd].
        * intros v Hv. apply R. right; exact Hv.
        * intros v z' y' Hv. apply B. right; exact Hv.
        * lra.
        * destruct (Qeq_dec w 0) as [Z|NZ].
          -- rewrite Z. split; lra.
          -- destruct (B wy zi yi (or_introl eq_refl) G Ey NZ) as [B1 B2]. split; nra.
        * cbn [fst snd] in *. exists acc'. split; [exact E|]. split; [lra|]. split; [exact A2|]. split.
          -- intros (v & z' & y' & [<-|Hv] & Gv & Yv & Nz).
             ++ assert (y' = yi) by congruence. subst y'. assert (~ (w == 0)%Q) by exact Nz. assert (0 < w)%Q by (apply Qlt_leneq; split; [exact W|intro C; apply H0; rewrite <- C; reflexivity] || (destruct (Qlt_le_dec 0 w); [assumption|exfalso; apply H0; lra])). lra.
             ++ assert (snd acc + w < snd acc')%Q; [|lra]. apply A3. exists v, z', y'. auto.
          -- intro Z. rewrite (A4 (fun v z' y' Hv => Z v z' y' (or_intror Hv))). assert (w == 0)%Q by (exact (Z wy zi yi (or_introl eq_refl) G Ey)). lra.
      + destruct (IH acc) as (acc' & E & A1 & A2 & A3 & A4); auto.
        * intros v Hv. apply R. right; exact Hv.
        * intros v z' y' Hv. apply B. right; exact Hv.
        * exists acc'. split; [exact E|]. split; [exact A1|]. split; [exact A2|]. split.
          -- intros (v & z' & y' & [<-|Hv] & Gv & Yv & Nz); [congruence|]. apply A3. exists v, z', y'. auto.
          -- intro Z. apply A4. intros v z' y' Hv. apply Z. right; exact Hv.
  Qed.
  Definition contributes (x0 x y : Q) (wx wy : Z) : Prop :=
    exists zi xi yi, grid wx wy = Some zi /\ coordinate xa wx = Ok xi /\ coordinate ya wy = Ok yi /\
      ~ (tricube (dist2 nx ny x y (norm_x x_angle x0 xi) yi) == 0)%Q.
  Lemma loop_x_spec : forall lo hi x0 x y wxs wys acc,
    (forall wx, In wx wxs -> 0 <= wx < zlen xa) -> (forall wy, In wy wys -> 0 <= wy < zlen ya) ->
    (forall wx wy zi, In wx wxs -> In wy wys -> grid wx wy = Some zi -> contributes x0 x y wx wy -> (lo <= zi <= hi)%Q) ->
    (0 <= snd acc)%Q -> (lo * snd acc <= fst acc <= hi * snd acc)%Q ->
    exists acc', loop_x tricube xa ya x_angle nx ny grid x0 x y wxs wys acc = Ok acc' /\ (snd acc <= snd acc')%Q /\ (lo * snd acc' <= fst acc' <= hi * snd acc')%Q /\
      ((exists wx wy, In wx wxs /\ In wy wys /\ contributes x0 x y wx wy) -> (snd acc < snd acc')%Q) /\
      ((forall wx wy, In wx wxs -> In wy wys -> ~ contributes x0 x y wx wy) -> (snd acc' == snd acc)%Q).
  Proof.
    intros lo hi x0 x y. induction wxs as [|wx t IH]; intros wys acc Rx Ry B P H; cbn [loop_x].
    - exists acc. split; [reflexivity|]. split; [lra|]. split; [exact H|]. split; [intros (wx & wy & [] & _)|reflexivity].
    - destruct (coordinate_ok xa wx (Rx wx (or_introl eq_refl))) as (xi & Ex). rewrite Ex. cbn [obind].
      destruct (loop_y_spec lo hi x y (norm_x x_angle x0 xi) wx wys acc Ry) as (a1 & E1 & M1 & H1 & S1 & Z1); auto.
      { intros wy zi yi Hw G Ey Nz. apply (B wx wy zi (or_introl eq_refl) Hw G). exists zi, xi, yi. auto. }
      rewrite E1. cbn [obind]. destruct (IH wys a1) as (a2 & E2 & M2 & H2 & S2 & Z2); auto.
      { intros v Hv. apply Rx. right; exact Hv. }
      { intros v wy zi Hv. apply B. right; exact Hv. }
      { lra. }
      exists a2. split; [exact E2|]. split; [lra|]. split; [exact H2|]. split.
      + intros (v & wy & [<-|Hv] & Hw & C).
        * assert (snd acc < snd a1)%Q; [|lra]. apply S1. destruct C as (zi & xi' & yi & G & Ex' & Ey & Nz). assert (xi' = xi) by congruence. subst xi'. exists wy, zi, yi. auto.
        * assert (snd a1 < snd a2)%Q; [|lra]. apply S2. exists v, wy. auto.
      + intro N. rewrite (Z2 (fun v wy Hv => N v wy (or_intror Hv))). apply Z1. intros wy zi yi Hw G Ey.
        destruct (Qeq_dec (tricube (dist2 nx ny x y (norm_x x_angle x0 xi) yi)) 0) as [Z|NZ]; [exact Z|]. exfalso.
        apply (N wx wy (or_introl eq_refl) Hw). exists zi, xi, yi. auto.
  Qed.
End Loess.


(** Shape of a run on a cell of the grid. *)
Lemma loess_run : forall tricube xa ya ang nx ny grid vt ix iy,
  (forall d, (0 <= tricube d)%Q) -> sizes_ok ang xa ya -> 1 <= nx -> 1 <= ny -> 0 <= ix < zlen xa -> 0 <= iy < zlen ya ->
  exists x0 x y xf yf value weight,
    coordinate xa (window_index ang (zlen xa) (ix - nx)) = Ok x0 /\ coordinate xa ix = Ok x /\ coordinate ya iy = Ok y /\
    (forall w, In w xf <-> 0 <= w < zlen xa /\ exists d, - nx <= d <= nx /\ w = window_index ang (zlen xa) (ix + d)) /\
    (forall w, In w yf <-> 0 <= w < zlen ya /\ exists d, - ny <= d <= ny /\ w = mirror (zlen ya) (iy + d)) /\
    loop_x tricube xa ya ang nx ny grid x0 (norm_x ang x0 x) y xf yf (0, 0)%Q = Ok (value, weight) /\ (0 <= weight)%Q /\
    loess tricube xa ya ang nx ny grid vt ix iy =
      (if processed vt (grid ix iy) then (if Qeq_bool weight 0 then Ok (grid ix iy) else Ok (Some (value / weight)%Q)) else Ok (grid ix iy)).
Proof.
  intros tricube xa ya ang nx ny grid vt ix iy Tn Hs Hx Hy Ix Iy. unfold loess.
  destruct (Z.ltb_spec nx 1); [lia|]. destruct (Z.ltb_spec ny 1); [lia|]. unfold loess_cell.
  destruct (coordinate_ok xa ix Ix) as (x & Ex). rewrite Ex. cbn [obind].
  destruct (frame_in ix (zlen xa) ang nx ltac:(lia) (proj2 Hs)) as (xf & Exf & Nxf & Hd & Fx). rewrite Exf. cbn [obind].
  assert (Hh : In (hd 0 xf) xf) by (destruct xf; [congruence|left; reflexivity]).
  destruct (coordinate_ok xa (hd 0 xf) (proj1 (proj1 (Fx _) Hh))) as (x0 & Ex0). rewrite Ex0. cbn [obind]. rewrite Hd in Ex0.
  destruct (coordinate_ok ya iy Iy) as (y & Ey). rewrite Ey. cbn [obind].
  destruct (frame_in iy (zlen ya) false ny ltac:(lia) (proj1 Hs)) as (yf & Eyf & Nyf & _ & Fy). rewrite Eyf. cbn [obind].
  assert (Rx : forall wx, In wx xf -> 0 <= wx < zlen xa) by (intros w Hw; apply (Fx w); exact Hw).
  assert (Ry : forall wy, In wy yf -> 0 <= wy < zlen ya) by (intros w Hw; apply (Fy w); exact Hw).
  assert (Tot : exists acc, loop_x tricube xa ya ang nx ny grid x0 (norm_x ang x0 x) y xf yf (0, 0)%Q = Ok acc /\ (0 <= snd acc)%Q).
  { revert Rx Ry. generalize yf as wys, xf as wxs. clear - Tn.
    assert (Ly : forall yy xi wx wys acc, (forall wy, In wy wys -> 0 <= wy < zlen ya) -> (0 <= snd acc)%Q -> exists acc', loop_y tricube ya nx ny grid (norm_x ang x0 x) yy xi wx wys acc = Ok acc' /\ (0 <= snd acc')%Q).
    { intros yy xi wx. induction wys as [|wy t IH]; intros acc R P; cbn [loop_y]; [eauto|]. destruct (grid wx wy) as [zi|].
      - destruct (coordinate_ok ya wy (R wy (or_introl eq_refl))) as (yi & ->). cbn [obind]. apply IH; [intros v Hv; apply R; right; exact Hv|]. cbn [snd].
        pose proof (Tn (dist2 nx ny (norm_x ang x0 x) yy xi yi)). lra.
      - apply IH; [intros v Hv; apply R; right; exact Hv|exact P]. }
    intros wys wxs. assert (P0 : (0 <= snd (0, 0))%Q) by (cbn; lra). revert P0. generalize (0, 0)%Q as acc. induction wxs as [|wx t IH]; intros acc P Rx Ry; cbn [loop_x]; [eauto|].
    destruct (coordinate_ok xa wx (Rx wx (or_introl eq_refl))) as (xi & ->). cbn [obind].
    destruct (Ly y (norm_x ang x0 xi) wx wys acc Ry P) as (a1 & -> & P1). cbn [obind]. apply IH; [exact P1|intros v Hv; apply Rx; right; exact Hv|exact Ry]. }
  destruct Tot as ([value weight] & El & Wn). cbn [snd] in Wn.
  exists x0, x, y, xf, yf, value, weight. rewrite El. cbn [obind]. repeat (split; [solve [auto]|]). reflexivity.
Qed.
Lemma coordinate_znth : forall a i v, coordinate a i = Ok v <-> znth a i = Some v.
Proof. intros a i v. unfold coordinate. destruct (znth a i); split; congruence. Qed.

Lemma contributes_weighs : forall tricube xa ya ang nx ny grid ix iy x0 x y xf yf wx wy,
  coordinate xa (window_index ang (zlen xa) (ix - nx)) = Ok x0 -> coordinate xa ix = Ok x -> coordinate ya iy = Ok y ->
  (forall w, In w xf <-> 0 <= w < zlen xa /\ exists d, - nx <= d <= nx /\ w = window_index ang (zlen xa) (ix + d)) ->
  (forall w, In w yf <-> 0 <= w < zlen ya /\ exists d, - ny <= d <= ny /\ w = mirror (zlen ya) (iy + d)) ->
  (In wx xf /\ In wy yf /\ contributes tricube xa ya ang nx ny grid x0 (norm_x ang x0 x) y wx wy <->
   weighs tricube xa ya ang nx ny grid ix iy wx wy).
Proof.
  intros tricube xa ya ang nx ny grid ix iy x0 x y xf yf wx wy E0 Ex Ey Fx Fy. rewrite coordinate_znth in E0, Ex, Ey. split.
  - intros (Ix & Iy & (zi & xi & yi & G & Exi & Eyi & Nz)). apply Fx in Ix. apply Fy in Iy.
    destruct Ix as (_ & dx & Hdx & Wx). destruct Iy as (_ & dy & Hdy & Wy). split; [exists dx, dy; auto|]. split; [congruence|].
    rewrite coordinate_znth in Exi, Eyi. eexists. split; [|exact Nz]. exists x0, x, y, xi, yi. repeat (split; [assumption|]). reflexivity.
  - intros ((dx & dy & Hdx & Hdy & Wx & Wy) & G & (d2 & (x0' & x' & y' & xi & yi & A & B & C & D & E & F) & Nz)).
    assert (x0' = x0) by congruence. assert (x' = x) by congruence. assert (y' = y) by congruence. subst x0' x' y'.
    assert (Rg : forall a i v, znth a i = Some v -> 0 <= i < zlen (a : list Q)).
    { intros a i v H. unfold znth in H. destruct (Z.ltb_spec i 0); [discriminate|]. assert (nth_error a (Z.to_nat i) <> None) by congruence. apply nth_error_Some in H1. unfold zlen. lia. }
    split; [apply Fx; split; [apply (Rg xa wx xi D)|exists dx; auto]|]. split; [apply Fy; split; [apply (Rg ya wy yi E)|exists dy; auto]|].
    destruct (grid wx wy) as [zi|] eqn:Gz; [|congruence]. exists zi, xi, yi. rewrite !coordinate_znth. split; [exact Gz|]. split; [exact D|]. split; [exact E|].
    cbv zeta in F. subst d2. exact Nz.
Qed.

(** The cells that are not to be processed: none with [All], the undefined ones with
    [Defined], the defined ones with [Undefined].
    The filter never fails on a cell of the grid (axes of at least two values), leaves the
    cells that are not processed unchanged, and otherwise returns either the cell itself or
    a value lying between any bounds of the defined values of its window whose weight is
    not zero. *)
Definition kept (vt : value_type) (z : option Q) : Prop :=
  match vt with All => False | Defined => z = None | Undefined => z <> None end.
Lemma processed_kept : forall vt z, processed vt z = false <-> kept vt z.
Proof. intros [] [z|]; cbn; split; intros; try discriminate; try contradiction; try congruence. Qed.
Theorem C61_loess : forall tricube xa ya x_angle nx ny grid vt ix iy,
  (forall d, (0 <= tricube d)%Q) -> sizes_ok x_angle xa ya -> 1 <= nx -> 1 <= ny ->
  0 <= ix < zlen xa -> 0 <= iy < zlen ya ->
  exists r, loess tricube xa ya x_angle nx ny grid vt ix iy = Ok r /\
    (kept vt (grid ix iy) -> r = grid ix iy) /\
    (r = grid ix iy \/ exists v, r = Some v /\
       forall lo hi, (forall wx wy z, weighs tricube xa ya x_angle nx ny grid ix iy wx wy -> grid wx wy = Some z -> (lo <= z <= hi)%Q) ->
         (lo <= v <= hi)%Q).
Proof.
  intros tricube xa ya ang nx ny grid vt ix iy Tn Hs Hx Hy Ix Iy.
  destruct (loess_run tricube xa ya ang nx ny grid vt ix iy Tn Hs Hx Hy Ix Iy) as (x0 & x & y & xf & yf & value & weight & E0 & Ex & Ey & Fx & Fy & El & Wn & E).
  rewrite E. pose proof (processed_kept vt (grid ix iy)) as PK. destruct (processed vt (grid ix iy)) eqn:Pr; [|eexists; split; [reflexivity|]; auto].
  destruct (Qeq_bool weight 0) eqn:W0; eexists; (split; [reflexivity|]); (split; [intro K; apply PK in K; discriminate|]); [left; reflexivity|right].
  exists (value / weight)%Q. split; [reflexivity|]. intros lo hi B.
  destruct (loop_x_spec tricube Tn xa ya ang nx ny grid lo hi x0 (norm_x ang x0 x) y xf yf (0, 0)%Q) as (acc & E2 & A & C & _).
  - intros w Hw. apply Fx. exact Hw.
  - intros w Hw. apply Fy. exact Hw.
  - intros wx wy z Hwx Hwy G Ct. apply (B wx wy z); [|exact G].
    apply (contributes_weighs tricube xa ya ang nx ny grid ix iy x0 x y xf yf wx wy E0 Ex Ey Fx Fy). auto.
  - cbn; lra.
  - cbn; lra.
  - rewrite El in E2. assert (acc = (value, weight)) by congruence. subst acc. cbn [fst snd] in *.
    assert (P : (0 < weight)%Q). { apply Qeq_bool_neq in W0. destruct (Qlt_le_dec 0 weight); [assumption|exfalso; apply W0; lra]. }
    split; [apply Qle_shift_div_l|apply Qle_shift_div_r]; try exact P; apply C.
Qed.

(** A processed undefined cell remains undefined exactly when no defined cell of its
    window has a non-zero weight. *)
Theorem C61_filled : forall tricube xa ya x_angle nx ny grid vt ix iy,
  (forall d, (0 <= tricube d)%Q) -> sizes_ok x_angle xa ya -> 1 <= nx -> 1 <= ny ->
  0 <= ix < zlen xa -> 0 <= iy < zlen ya -> grid ix iy = None -> vt <> Defined ->
  (loess tricube xa ya x_angle nx ny grid vt ix iy = Ok None <->
   forall wx wy, ~ weighs tricube xa ya x_angle nx ny grid ix iy wx wy).
Proof.
  intros tricube xa ya ang nx ny grid vt ix iy Tn Hs Hx Hy Ix Iy Hg Hvt.
  destruct (loess_run tricube xa ya ang nx ny grid vt ix iy Tn Hs Hx Hy Ix Iy) as (x0 & x & y & xf & yf & value & weight & E0 & Ex & Ey & Fx & Fy & El & Wn & E).
  rewrite E, Hg. assert (Pr : processed vt None = true) by (destruct vt; [reflexivity|congruence|reflexivity]). rewrite Pr.
  pose proof (fun wx wy => contributes_weighs tricube xa ya ang nx ny grid ix iy x0 x y xf yf wx wy E0 Ex Ey Fx Fy) as CW.
  assert (LS : ((exists wx wy, In wx xf /\ In wy yf /\ contributes tricube xa ya ang nx ny grid x0 (norm_x ang x0 x) y wx wy) -> (0 < weight)%Q) /\
               ((forall wx wy, In wx xf -> In wy yf -> ~ contributes tricube xa ya ang nx ny grid x0 (norm_x ang x0 x) y wx wy) -> (weight == 0)%Q)).
  { assert (BB : exists lo hi, forall wx wy zi, In wx xf -> In wy yf -> grid wx wy = Some zi -> (lo <= zi <= hi)%Q).
    { clear. assert (Ln : forall wx ys, exists lo hi, forall wy zi, In wy ys -> grid wx wy = Some zi -> (lo <= zi <= hi)%Q).
      { intros wx. induction ys as [|wy ys (lo & hi & IH)]; [exists 0%Q, 0%Q; intros wy zi []|]. destruct (grid wx wy) as [z|] eqn:G.
        - exists (Qmin lo z), (Qmax hi z). intros w zi [<-|Hw] Gz.
          + assert (zi = z) by congruence. subst. split; [apply Q.le_min_r|apply Q.le_max_r].
          + destruct (IH w zi Hw Gz). pose proof (Q.le_min_l lo z). pose proof (Q.le_max_l hi z). split; lra.
        - exists lo, hi. intros w zi [<-|Hw] Gz; [congruence|apply (IH w zi Hw Gz)]. }
      induction xf as [|wx t (lo & hi & IH)]; [exists 0%Q, 0%Q; intros wx wy zi []|]. destruct (Ln wx yf) as (lo' & hi' & L).
      exists (Qmin lo lo'), (Qmax hi hi'). intros w wy zi [<-|Hw] Hy Gz.
      - destruct (L wy zi Hy Gz). pose proof (Q.le_min_r lo lo'). pose proof (Q.le_max_r hi hi'). split; lra.
      - destruct (IH w wy zi Hw Hy Gz). pose proof (Q.le_min_l lo lo'). pose proof (Q.le_max_l hi hi'). split; lra. }
    destruct BB as (lo & hi & BB).
    destruct (loop_x_spec tricube Tn xa ya ang nx ny grid lo hi x0 (norm_x ang x0 x) y xf yf (0, 0)%Q) as (acc & E2 & A & C & S1 & S2).
    - intros w Hw. apply Fx. exact Hw.
    - intros w Hw. apply Fy. exact Hw.
    - intros wx wy z Hwx Hwy G _. apply (BB wx wy z); assumption.
    - cbn; lra.
    - cbn; lra.
    - rewrite El in E2. assert (acc = (value, weight)) by congruence. subst acc. cbn [fst snd] in *. auto. }
  destruct LS as [L1 L2]. split.
  - intros R wx wy W. assert (P : (0 < weight)%Q). { apply L1. exists wx, wy. apply CW in W. exact W. }
    destruct (Qeq_bool weight 0) eqn:W0; [apply Qeq_bool_eq in W0; lra|congruence].
  - intros N. assert (Z : (weight == 0)%Q). { apply L2. intros wx wy Hwx Hwy C. apply (N wx wy). apply CW. auto. }
    apply Qeq_bool_iff in Z. rewrite Z. reflexivity.
Qed.

(** A constant field is reproduced. *)
Theorem C61_constant : forall tricube xa ya x_angle nx ny grid vt ix iy c,
  (forall d, (0 <= tricube d)%Q) -> sizes_ok x_angle xa ya -> 1 <= nx -> 1 <= ny ->
  0 <= ix < zlen xa -> 0 <= iy < zlen ya ->
  (forall wx wy z, grid wx wy = Some z -> (z == c)%Q) ->
  exists r, loess tricube xa ya x_angle nx ny grid vt ix iy = Ok r /\ (r = None \/ exists v, r = Some v /\ (v == c)%Q).
Proof.
  intros tricube xa ya ang nx ny grid vt ix iy c Tn Hs Hx Hy Ix Iy Hc.
  destruct (C61_loess tricube xa ya ang nx ny grid vt ix iy Tn Hs Hx Hy Ix Iy) as (r & E & U & [R|(v & R & B)]); exists r; (split; [exact E|]).
  - destruct (grid ix iy) as [z|] eqn:G; [right; exists z; split; [exact R|apply (Hc ix iy z G)]|left; exact R].
  - right. exists v. split; [exact R|]. destruct (B c c) as [B1 B2]; [|lra]. intros wx wy z _ G. rewrite (Hc wx wy z G). split; lra.
Qed.

(** Instance: a 3 x 3 grid whose centre is undefined; any weight that is 1 at distance 0
    (here a rational stand-in that keeps the tri-cube values at 0 and beyond 1). *)
Definition stand_in (d : Q) : Q := if Qle_bool d 1 then ((1 - d) * (1 - d) * (1 - d))%Q else 0%Q.
Example C61_ex : sizes_ok false [0; 1; 2]%Q [0; 1; 2]%Q /\
  exists v, loess stand_in [0; 1; 2]%Q [0; 1; 2]%Q false 2 2 (fun i j => if (i =? 1) && (j =? 1) then None else Some (inject_Z i)) Undefined 1 1 = Ok (Some v) /\ (v == 1)%Q.
Proof. split; [split; vm_compute; intro H; discriminate H|]. eexists. split; [vm_compute; reflexivity|]. reflexivity. Qed.
(** Empty windows are refused. *)
Theorem C61_window_size : forall tricube xa ya a nx ny grid vt ix iy, (nx < 1 \/ ny < 1) ->
  exists w, loess tricube xa ya a nx ny grid vt ix iy = Throw w.
Proof.
  intros tricube xa ya a nx ny grid vt ix iy [H|H]; unfold loess.
  - destruct (Z.ltb_spec nx 1); [eexists; reflexivity|lia].
  - destruct (Z.ltb_spec nx 1); [eexists; reflexivity|]. destruct (Z.ltb_spec ny 1); [eexists; reflexivity|lia].
Qed.

(** * The filtered value is the weighted mean of the window *)
Definition qsum (l : list Q) : Q := fold_right Qplus 0%Q l.
Lemma nth_error_ext0 : forall A (l m : list A), (forall k, nth_error l k = nth_error m k) -> l = m.
Proof.
  intros A. induction l as [|a l IH]; intros [|b m] H; [reflexivity|specialize (H 0%nat); discriminate|specialize (H 0%nat); discriminate|].
  f_equal; [specialize (H 0%nat); cbn in H; congruence|]. apply IH. intro k. apply (H (S k)).
Qed.
Lemma frame_map : forall index size angle h, 0 <= h -> (if angle : bool then 1 <= size else 2 <= size) ->
  exists r, frame_index index size angle (h * 2 + 1) = Ok r /\
    r = map (fun k => window_index angle size (index + (Z.of_nat k - h))) (seq 0 (Z.to_nat (2 * h + 1))) /\
    forall w, In w r -> 0 <= w < size.
Proof.
  intros index size angle h Hh Hs. destruct (C47_frame_total index size angle (h * 2 + 1) Hs) as (r & E). exists r. split; [exact E|].
  assert (Qh : Z.quot (h * 2 + 1) 2 = h) by (rewrite Z.quot_div_nonneg by lia; Z.div_mod_to_equations; lia).
  assert (G : length r = Z.to_nat (h * 2 + 1) /\ forall k v, nth_error r k = Some v ->
     v = window_index angle size (index - h + Z.of_nat k) /\ 0 <= v < size).
  { destruct angle.
    - destruct (C47_frame_wrap index size (h * 2 + 1) r Hs ltac:(lia) E) as [L N]. rewrite Qh in N. auto.
    - destruct (C47_frame_reflect index size (h * 2 + 1) r Hs ltac:(lia) E) as [L N]. rewrite Qh in N. auto. }
  destruct G as [L N]. split.
  - apply nth_error_ext0. intro k. destruct (nth_error r k) as [v|] eqn:Ek.
    + destruct (N k v Ek) as [Ev _]. assert (k < length r)%nat by (apply nth_error_Some; congruence).
      rewrite nth_error_map. rewrite (nth_error_nth' _ 0%nat) by (rewrite seq_length; lia). rewrite seq_nth by lia. cbn [option_map].
      rewrite Ev. do 2 f_equal. lia.
    + apply nth_error_None in Ek. symmetry. apply nth_error_None. rewrite map_length, seq_length. lia.
  - intros w Hw. apply In_nth_error in Hw. destruct Hw as (k & Ek). apply (N k w Ek).
Qed.

Section Mean.
  Variables (tricube : Q -> Q) (xa ya : list Q) (ang : bool) (nx ny : Z) (grid : Z -> Z -> option Q) (ix iy : Z) (x0 x y : Q).
  Hypothesis E0 : znth xa (window_index ang (zlen xa) (ix - nx)) = Some x0.
  Hypothesis Ex : znth xa ix = Some x.
  Hypothesis Ey : znth ya iy = Some y.
  Let ww := window_weight tricube xa ya ang nx ny grid ix iy.
  Let wv := window_value grid.
  Lemma loop_y_mean : forall xi wx wys acc, znth xa wx = Some xi -> (forall wy, In wy wys -> 0 <= wy < zlen ya) ->
    exists acc', loop_y tricube ya nx ny grid (norm_x ang x0 x) y (norm_x ang x0 xi) wx wys acc = Ok acc' /\
      (fst acc' == fst acc + qsum (map (fun wy => ww wx wy * wv wx wy) wys))%Q /\
      (snd acc' == snd acc + qsum (map (fun wy => ww wx wy) wys))%Q.
  Proof.
    intros xi wx wys. induction wys as [|wy t IH]; intros acc Exi R; cbn [loop_y map qsum fold_right].
    - exists acc. split; [reflexivity|]. split; ring.
    - destruct (coordinate_ok ya wy (R wy (or_introl eq_refl))) as (yi & Eyi). pose proof Eyi as Eyi'. apply coordinate_znth in Eyi'.
      destruct (grid wx wy) as [zi|] eqn:G.
      + rewrite Eyi. cbn [obind]. match goal with |- context [loop_y _ _ _ _ _ _ _ _ _ _ ?a] => destruct (IH a Exi) as (acc' & E & A & B) end; [intros v Hv; apply R; right; exact Hv|].
        assert (Zw : ww wx wy = tricube (dist2 nx ny (norm_x ang x0 x) y (norm_x ang x0 xi) yi)).
        { unfold ww, window_weight. rewrite G, E0, Ex, Ey, Exi, Eyi'. reflexivity. }
        assert (Zv : wv wx wy = zi) by (unfold wv, window_value; rewrite G; reflexivity).
        exists acc'. split; [exact E|]. rewrite A, B. cbn [fst snd]. rewrite Zw, Zv. unfold qsum. split; ring.
      + destruct (IH acc Exi) as (acc' & E & A & B); [intros v Hv; apply R; right; exact Hv|]. exists acc'. split; [exact E|]. rewrite A, B.
        assert (Z : ww wx wy = 0%Q) by (unfold ww, window_weight; rewrite G; reflexivity). rewrite Z. unfold qsum. split; ring.
  Qed.
  Lemma loop_x_mean : forall wys wxs acc, (forall wx, In wx wxs -> 0 <= wx < zlen xa) -> (forall wy, In wy wys -> 0 <= wy < zlen ya) ->
    exists acc', loop_x tricube xa ya ang nx ny grid x0 (norm_x ang x0 x) y wxs wys acc = Ok acc' /\
      (fst acc' == fst acc + qsum (map (fun wx => qsum (map (fun wy => ww wx wy * wv wx wy) wys)) wxs))%Q /\
      (snd acc' == snd acc + qsum (map (fun wx => qsum (map (fun wy => ww wx wy) wys)) wxs))%Q.
  Proof.
    intros wys wxs. induction wxs as [|wx t IH]; intros acc Rx Ry; cbn [loop_x map].
    - exists acc. split; [reflexivity|]. cbn. split; ring.
    - destruct (coordinate_ok xa wx (Rx wx (or_introl eq_refl))) as (xi & Exi). rewrite Exi. cbn [obind]. apply coordinate_znth in Exi.
      destruct (loop_y_mean xi wx wys acc Exi Ry) as (a1 & -> & A1 & B1). cbn [obind].
      destruct (IH a1) as (a2 & E & A2 & B2); [intros v Hv; apply Rx; right; exact Hv|exact Ry|]. exists a2. split; [exact E|].
      rewrite A2, B2, A1, B1. cbn [qsum fold_right]. fold (qsum (map (fun wx0 => qsum (map (fun wy0 => ww wx0 wy0 * wv wx0 wy0) wys)) t))%Q.
      fold (qsum (map (fun wx0 => qsum (map (fun wy0 => ww wx0 wy0) wys)) t)). split; ring.
  Qed.
End Mean.
Lemma qsum_window : forall h (w : Z -> Z) (g : Z -> Q),
  (qsum (map g (map (fun k => w (Z.of_nat k - h)%Z) (seq 0 (Z.to_nat (2 * h + 1)%Z)))) == sum_window h (fun d => g (w d)))%Q.
Proof. intros h w g. unfold sum_window. generalize (seq 0 (Z.to_nat (2 * h + 1))). induction l as [|k l IH]; cbn; [reflexivity|]. rewrite <- IH. reflexivity. Qed.
Lemma sum_window_ext : forall h f g, (forall d, (f d == g d)%Q) -> (sum_window h f == sum_window h g)%Q.
Proof. intros h f g H. unfold sum_window. generalize (seq 0 (Z.to_nat (2 * h + 1))). induction l as [|k l IH]; cbn; [reflexivity|]. rewrite IH, H. reflexivity. Qed.

(** A processed cell becomes the weighted mean of its window, the weights being those of
    [window_weight]; if they are all null it is unchanged. *)
Theorem C61_weighted_mean : forall tricube xa ya x_angle nx ny grid vt ix iy,
  sizes_ok x_angle xa ya -> 1 <= nx -> 1 <= ny -> 0 <= ix < zlen xa -> 0 <= iy < zlen ya ->
  ~ kept vt (grid ix iy) ->
  let w := window_weight tricube xa ya x_angle nx ny grid ix iy in
  let W := total_window x_angle (zlen xa) (zlen ya) nx ny ix iy w in
  let S := total_window x_angle (zlen xa) (zlen ya) nx ny ix iy (fun wx wy => w wx wy * window_value grid wx wy)%Q in
  exists r, loess tricube xa ya x_angle nx ny grid vt ix iy = Ok r /\
    ((W == 0)%Q -> r = grid ix iy) /\
    (~ (W == 0)%Q -> exists v, r = Some v /\ (v == S / W)%Q).
Proof.
  intros tricube xa ya ang nx ny grid vt ix iy Hs Hx Hy Ix Iy Pr w W S. rewrite <- processed_kept in Pr. apply not_false_is_true in Pr. unfold loess.
  destruct (Z.ltb_spec nx 1); [lia|]. destruct (Z.ltb_spec ny 1); [lia|]. unfold loess_cell.
  destruct (coordinate_ok xa ix Ix) as (x & Ex). rewrite Ex. cbn [obind]. apply coordinate_znth in Ex.
  destruct (frame_map ix (zlen xa) ang nx ltac:(lia) (proj2 Hs)) as (xf & Exf & Mx & Rx). rewrite Exf. cbn [obind].
  assert (Hd : hd 0 xf = window_index ang (zlen xa) (ix - nx)).
  { rewrite Mx. destruct (Z.to_nat (2 * nx + 1)) eqn:K; [lia|]. cbn [seq map hd]. f_equal; lia. }
  assert (Hh : In (hd 0 xf) xf).
  { rewrite Mx. destruct (Z.to_nat (2 * nx + 1)) eqn:K; [lia|]. cbn [seq map hd]. left. reflexivity. }
  destruct (coordinate_ok xa (hd 0 xf) (Rx _ Hh)) as (x0 & Ex0). rewrite Ex0. cbn [obind]. rewrite Hd in Ex0. apply coordinate_znth in Ex0.
  cbv zeta. rewrite Pr. destruct (coordinate_ok ya iy Iy) as (y & Ey). rewrite Ey. cbn [obind]. apply coordinate_znth in Ey.
  destruct (frame_map iy (zlen ya) false ny ltac:(lia) (proj1 Hs)) as (yf & Eyf & My & Ry). rewrite Eyf. cbn [obind].
  destruct (loop_x_mean tricube xa ya ang nx ny grid ix iy x0 x y Ex0 Ex Ey yf xf (0, 0)%Q Rx Ry) as ([value weight] & El & A & B). rewrite El. cbn [obind]. cbn [fst snd] in A, B. fold w in A, B.
  assert (EW : (weight == W)%Q).
  { rewrite B, Qplus_0_l. rewrite Mx, My. unfold W, total_window. rewrite (qsum_window nx (fun d => window_index ang (zlen xa) (ix + d))). apply sum_window_ext. intro dx.
    rewrite (qsum_window ny (fun d => window_index false (zlen ya) (iy + d))). reflexivity. }
  assert (EV : (value == S)%Q).
  { rewrite A, Qplus_0_l. rewrite Mx, My. unfold S, total_window. rewrite (qsum_window nx (fun d => window_index ang (zlen xa) (ix + d))). apply sum_window_ext. intro dx.
    rewrite (qsum_window ny (fun d => window_index false (zlen ya) (iy + d))). reflexivity. }
  destruct (Qeq_bool weight 0) eqn:W0; eexists; (split; [reflexivity|]); split; intro HW.
  - reflexivity.
  - exfalso. apply HW. rewrite <- EW. apply Qeq_bool_eq. exact W0.
  - exfalso. apply Qeq_bool_neq in W0. apply W0. rewrite EW. exact HW.
  - eexists. split; [reflexivity|]. rewrite EV, EW. reflexivity.
Qed.
