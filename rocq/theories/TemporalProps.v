(** C121: the dates of a temporal axis, of any resolution. *)
From Verif Require Import Base BaseProofs MathModel AxisModel IntAxisModel IntAxisProofs DateModel DateProps XarrayModel TemporalModel.
Open Scope Z_scope.
Ltac Zify.zify_post_hook ::= idtac.

(** ** Specification: dates are compared as numbers of attoseconds *)
(** The dates [l], in the unit [u]: [date] is before all of them or after all of them. *)
Definition before_all (l : list Z) (u date : Z) : Prop := forall w, In w l -> date < w * u.
Definition after_all (l : list Z) (u date : Z) : Prop := forall w, In w l -> w * u < date.
(** A one-dimensional contiguous numpy array of dates. *)
Definition dates (k : date_kind) (r : resolution) (l : list Z) : tarray := TArray 1 true (dtype_string k r) l.

(** ** Lemmas *)
Lemma array_dtype_dates k r l : array_dtype (dates k r l) = Ok (k, r).
Proof. unfold array_dtype, dates. cbn [ar_ndim ar_c ar_dtype negb Z.eqb Pos.eqb]. apply C25_round_trip. Qed.

Lemma kind_eqb_refl k : kind_eqb k k = true.
Proof. destruct k; reflexivity. Qed.
Lemma rank_inj r s : rank r = rank s -> r = s.
Proof. destruct r, s; cbn; intro H; try reflexivity; discriminate. Qed.

Lemma unit_pos r u : unit_as r = Some u -> 0 < u.
Proof. intro E. destruct r; cbn [unit_as] in E; try discriminate E; apply (f_equal (fun o => match o with Some z => z | None => 0 end)) in E; cbv beta iota in E; rewrite <- E; reflexivity. Qed.

(** A finer unit divides a coarser one. *)
Lemma unit_divides r s u v : unit_as r = Some u -> unit_as s = Some v -> rank r <= rank s ->
  exists m, 0 < m /\ u = m * v.
Proof.
  intros Hu Hv Hr. exists (u / v).
  assert (Eu : u = match unit_as r with Some z => z | None => 0 end) by (rewrite Hu; reflexivity).
  assert (Ev : v = match unit_as s with Some z => z | None => 0 end) by (rewrite Hv; reflexivity).
  rewrite Eu, Ev.
  destruct r; try discriminate Hu; clear Hu; destruct s; try discriminate Hv; clear Hv;
  cbn [rank] in Hr; try (exfalso; lia); split; reflexivity.
Qed.

Lemma each_ok {A B} (f : A -> outcome B) (g : A -> B) l : (forall x, In x l -> f x = Ok (g x)) -> each f l = Ok (map g l).
Proof.
  induction l as [|x l IH]; intro H; cbn [each map obind]; auto.
  rewrite H by (left; auto). cbn [obind]. rewrite IH by (intros; apply H; right; auto). reflexivity.
Qed.
Lemma each_exists {A B} (f : A -> outcome B) (P : A -> B -> Prop) l :
  (forall x, In x l -> exists y, f x = Ok y /\ P x y) -> exists ys, each f l = Ok ys /\ Forall2 P l ys.
Proof.
  induction l as [|x l IH]; intro H; cbn [each obind]. { eexists; split; [reflexivity|constructor]. }
  destruct (H x (or_introl eq_refl)) as (y & E & Py). destruct IH as (ys & Es & Pys). { intros; apply H; right; auto. }
  rewrite E. cbn [obind]. rewrite Es. cbn [obind]. eexists; split; [reflexivity|constructor; auto].
Qed.
Lemma each_map {A B C} (f : B -> outcome C) (h : A -> B) l : each f (map h l) = each (fun x => f (h x)) l.
Proof. induction l; cbn [each map]; auto. rewrite IHl. reflexivity. Qed.

(** *** Searches of the integer axis, on ascending dates *)
Lemma In_znth {A} (l : list A) w : In w l -> exists i, znth l i = Some w /\ 0 <= i < zlen l.
Proof.
  intro H. destruct (In_nth_error _ _ H) as (n & E). exists (Z.of_nat n).
  assert (n < length l)%nat by (apply nth_error_Some; congruence).
  unfold znth, zlen. destruct (Z.ltb_spec (Z.of_nat n) 0); [lia|]. rewrite Nat2Z.id. split; auto. lia.
Qed.

Lemma axis_at l c i v : int_axis_of_values l = Ok c -> (i_at c i v <-> znth l i = Some v).
Proof.
  intro E. destruct (int_axis_values _ _ E) as [Es V]. split; [|apply V].
  intro H. assert (R := proj1 (proj1 (i_at_iff c i v) H)). rewrite Es in R.
  assert (X : exists w, znth l i = Some w).
  { unfold znth. destruct (Z.ltb_spec i 0); [lia|]. destruct (nth_error l (Z.to_nat i)) eqn:N; eauto.
    apply nth_error_None in N. unfold zlen in R. lia. }
  destruct X as (w & W). rewrite W. f_equal. assert (Y := V _ _ W). unfold i_at in *. congruence.
Qed.

Lemma axis_asc l c : int_axis_of_values l = Ok c -> i_ascending l -> 1 < zlen l -> i_asc c = true.
Proof.
  intros E Ha Hl. destruct l as [|a [|b t]]; cbn in Hl; unfold zlen in *; cbn [length] in *; try lia.
  assert (X := Ha 0 1 a b eq_refl eq_refl ltac:(lia)).
  assert (S := proj2 (int_axis_values _ _ E)). revert E. unfold int_axis_of_values.
  set (l := a :: b :: t) in *.
  destruct (i_is_evenly_spaced l) eqn:Ev.
  - unfold i_mk_regular. destruct (zlen l =? 0); [discriminate|]. destruct (hd 0 l =? last l 0); [discriminate|].
    intro E. assert (Ec := f_equal (fun o => match o with Ok z => z | _ => c end) E). cbv beta iota in Ec. clear E.
    assert (A0 := S 0 a eq_refl). assert (A1 := S 1 b eq_refl). subst c.
    apply i_at_iff in A0, A1. destruct A0 as [_ A0], A1 as [_ A1]. cbn [iv i_asc] in *.
    destruct (zlen l <? 2); auto. apply Z.ltb_lt. lia.
  - destruct (zlen l =? 0); [discriminate|]. destruct (negb _ && _); [|discriminate].
    intro E. assert (Ec := f_equal (fun o => match o with Ok z => z | _ => c end) E). cbv beta iota in Ec. clear E.
    subst c. cbn [i_asc]. unfold l. apply Z.ltb_lt. auto.
Qed.

Lemma find_bounded c x : i_wf c -> exists r, i_find_index c x true = Ok r /\ i_nearest_last c x r.
Proof.
  intro W. destruct c as [a pts|a n s st s2].
  - destruct (i_irr_find a pts x true W) as (r & E & [(_ & B & _)|H] & _); [discriminate|]. eauto.
  - destruct (i_reg_find a n s st s2 x true W) as (r & E & H). exists r. split; auto.
    destruct W as (Hn & _ & Hst).
    destruct (Z.leb_spec (2 * ((x - s) * Z.sgn st)) (- Z.abs st)) as [A|A].
    { subst r. exists s. split. { apply i_at_iff. cbn [i_size iv]. lia. }
      intros j w Hj. apply i_at_iff in Hj. cbn [i_size iv] in Hj. destruct Hj as [Hj ->].
      destruct a; [rewrite Z.sgn_pos, Z.abs_eq in A by lia|rewrite Z.sgn_neg, Z.abs_neq in A by lia]; nia. }
    destruct (Z.leb_spec ((2 * n - 1) * Z.abs st) (2 * ((x - s) * Z.sgn st))) as [B|B]; auto.
    subst r. exists (s + (n - 1) * st). split. { apply i_at_iff. cbn [i_size iv]. lia. }
    intros j w Hj. apply i_at_iff in Hj. cbn [i_size iv] in Hj. destruct Hj as [Hj ->]. split; [|lia].
    destruct a; [rewrite Z.sgn_pos, Z.abs_eq in B by lia|rewrite Z.sgn_neg, Z.abs_neq in B by lia]; nia.
Qed.

Lemma find_free c x : i_wf c ->
  exists r, i_find_index c x false = Ok r /\ ((r = -1 /\ ~ i_inside c x) \/ i_nearest_last c x r).
Proof.
  intro W. destruct c as [a pts|a n s st s2].
  - destruct (i_irr_find a pts x false W) as (r & E & H & _). exists r. split; auto. tauto.
  - destruct (i_reg_find a n s st s2 x false W) as (r & E & H). exists r. split; auto.
    destruct W as (Hn & _ & Hst).
    destruct (Z.leb_spec (2 * ((x - s) * Z.sgn st)) (- Z.abs st)) as [A|A].
    { left. split; auto. intros (i & v & j & w & Hi & Hj & L).
      apply i_at_iff in Hi, Hj. destruct Hi as [Hi ->], Hj as [Hj ->]. cbn [i_size iv] in *.
      destruct a; [rewrite Z.sgn_pos in A by auto|rewrite Z.sgn_neg in A by auto]; nia. }
    destruct (Z.leb_spec ((2 * n - 1) * Z.abs st) (2 * ((x - s) * Z.sgn st))) as [B|B].
    { left. split; auto. intros (i & v & j & w & Hi & Hj & L).
      apply i_at_iff in Hi, Hj. destruct Hi as [Hi ->], Hj as [Hj ->]. cbn [i_size iv] in *.
      destruct a; [rewrite Z.sgn_pos in B by auto|rewrite Z.sgn_neg in B by auto]; nia. }
    right; auto.
Qed.

(** The rows found on ascending dates: the interval closed on the left. *)
Definition row_of (l : list Z) (x : Z) (p : Z * Z) : Prop :=
  (p = (-1, -1) /\ (before_all l 1 x \/ after_all l 1 x)) \/
  (exists i lo hi, p = (i, i + 1) /\ znth l i = Some lo /\ znth l (i + 1) = Some hi /\
     (lo <= x < hi \/ x = hi /\ i + 1 = zlen l - 1)).

Lemma find_row l c x : int_axis_of_values l = Ok c -> i_ascending l -> 1 < zlen l ->
  exists r, i_find_indexes c x = Ok r /\ row_of l x (row r).
Proof.
  intros E Ha Hl. assert (W := int_axis_wf l c E (or_introl Ha)).
  assert (Es := proj1 (int_axis_values _ _ E)).
  assert (At := fun i v => axis_at l c i v E). assert (Asc := axis_asc l c E Ha Hl).
  assert (Hn : 1 < i_size c) by lia.
  destruct (find_free c x W) as (r & Er & [(-> & N)|(v & Hv & Near)]).
  { unfold i_find_indexes. rewrite Er. cbn [obind]. change (-1 =? -1) with true. cbn iota.
    eexists. split; [reflexivity|]. left. split; auto.
    destruct (In_znth l (hd 0 l)) as (i0 & Z0 & R0). { destruct l; cbn in Hl; [unfold zlen in Hl; cbn in Hl; lia|left; auto]. }
    destruct (Z.lt_ge_cases x (hd 0 l)) as [L|G].
    - left. intros w Iw. destruct (In_znth _ _ Iw) as (j & Zj & Rj).
      destruct (Z.eq_dec j 0) as [->|Nj].
      + destruct l; [discriminate|]. cbn in Zj, L |- *. injection Zj as <-. lia.
      + assert (X : znth l 0 = Some (hd 0 l)) by (destruct l; [unfold zlen in Hl; cbn in Hl; lia|reflexivity]).
        assert (Y := Ha 0 j _ _ X Zj ltac:(lia)). lia.
    - right. intros w Iw. destruct (In_znth _ _ Iw) as (j & Zj & Rj).
      destruct (Z.lt_ge_cases w x); [lia|]. exfalso. apply N.
      exists 0, (hd 0 l), j, w. split; [|split]; [apply At|apply At|lia]; auto.
      destruct l; [unfold zlen in Hl; cbn in Hl; lia|reflexivity]. }
  assert (Rr := proj1 (proj1 (i_at_iff _ _ _) Hv)).
  unfold i_find_indexes. rewrite Er. cbn [obind].
  destruct (Z.eqb_spec r (-1)); [lia|]. assert (Zr := proj1 (At _ _) Hv).
  unfold i_at in Hv. rewrite Hv. cbn [obind]. rewrite Asc.
  assert (Get : forall i, 0 <= i < zlen l -> exists w, znth l i = Some w).
  { intros i Hi. unfold znth. destruct (Z.ltb_spec i 0); [lia|]. destruct (nth_error l (Z.to_nat i)) eqn:N; eauto.
    apply nth_error_None in N. unfold zlen in Hi. lia. }
  destruct (Z.eqb_spec (x - v) 0) as [D|D].
  - assert (x = v) by lia. subst x. destruct (Z.eqb_spec r (i_size c - 1)) as [L|L].
    + replace ((r - 1 >=? 0) && (r - 1 <? i_size c) && (r >=? 0) && (r <? i_size c)) with true by (symmetry; rewrite !andb_true_iff; lia).
      eexists. split; [reflexivity|]. right. destruct (Get (r - 1) ltac:(lia)) as (w & Hw).
      exists (r - 1), w, v. cbn [row]. replace (r - 1 + 1) with r by ring. split; auto. split; auto. split; auto. right. lia.
    + replace ((r >=? 0) && (r <? i_size c) && (r + 1 >=? 0) && (r + 1 <? i_size c)) with true by (symmetry; rewrite !andb_true_iff; lia).
      eexists. split; [reflexivity|]. right. destruct (Get (r + 1) ltac:(lia)) as (w & Hw).
      exists r, v, w. cbn [row]. split; auto. split; auto. split; auto. left.
      assert (Y := Ha r (r + 1) _ _ Zr Hw ltac:(lia)). lia.
  - destruct (Z.ltb_spec (x - v) 0) as [Lt|Gt].
    + destruct (Z.lt_ge_cases (r - 1) 0) as [B|B].
      * replace ((r - 1 >=? 0) && (r - 1 <? i_size c) && (r >=? 0) && (r <? i_size c)) with false
          by (symmetry; rewrite !andb_false_iff; lia).
        eexists. split; [reflexivity|]. left. split; auto. left. intros w Iw.
        destruct (In_znth _ _ Iw) as (j & Zj & Rj). destruct (Z.eq_dec j r) as [->|Nj].
        -- assert (w = v) by congruence. lia.
        -- assert (Y := Ha r j _ _ Zr Zj ltac:(lia)). lia.
      * replace ((r - 1 >=? 0) && (r - 1 <? i_size c) && (r >=? 0) && (r <? i_size c)) with true by (symmetry; rewrite !andb_true_iff; lia).
        eexists. split; [reflexivity|]. right. destruct (Get (r - 1) ltac:(lia)) as (w & Hw).
        exists (r - 1), w, v. cbn [row]. replace (r - 1 + 1) with r by ring. split; auto. split; auto. split; auto. left.
        assert (Y := Ha (r - 1) r _ _ Hw Zr ltac:(lia)).
        assert (M := proj1 (Near (r - 1) w (proj2 (At _ _) Hw))). lia.
    + destruct (Z.lt_ge_cases (r + 1) (zlen l)) as [B|B].
      * replace ((r >=? 0) && (r <? i_size c) && (r + 1 >=? 0) && (r + 1 <? i_size c)) with true by (symmetry; rewrite !andb_true_iff; lia).
        eexists. split; [reflexivity|]. right. destruct (Get (r + 1) ltac:(lia)) as (w & Hw).
        exists r, v, w. cbn [row]. split; auto. split; auto. split; auto. left.
        assert (Y := Ha r (r + 1) _ _ Zr Hw ltac:(lia)).
        assert (M := proj1 (Near (r + 1) w (proj2 (At _ _) Hw))). lia.
      * replace ((r >=? 0) && (r <? i_size c) && (r + 1 >=? 0) && (r + 1 <? i_size c)) with false
          by (symmetry; rewrite !andb_false_iff; lia).
        eexists. split; [reflexivity|]. left. split; auto. right. intros w Iw.
        destruct (In_znth _ _ Iw) as (j & Zj & Rj). destruct (Z.eq_dec j r) as [->|Nj].
        -- assert (w = v) by congruence. lia.
        -- assert (Y := Ha j r _ _ Zj Zr ltac:(lia)). lia.
Qed.

(** *** The conversion *)
Lemma astype_coarse cal k r r' u v x : unit_as r = Some u -> unit_as r' = Some v -> rank r' <= rank r ->
  astype cal k r' r x * u = x * v.
Proof.
  intros Hu Hv Hr. destruct (unit_divides r' r v u Hv Hu Hr) as (m & Hm & ->).
  unfold astype. rewrite Hu, Hv. assert (P := unit_pos _ _ Hu).
  replace (x * (m * u)) with (x * m * u) by ring. rewrite Z.div_mul by lia. ring.
Qed.
Lemma astype_fine cal k r r' u v x : unit_as r = Some u -> unit_as r' = Some v ->
  astype cal k r' r x * u <= x * v < astype cal k r' r x * u + u.
Proof.
  intros Hu Hv. unfold astype. rewrite Hu, Hv. assert (P := unit_pos _ _ Hu).
  assert (D := Z.div_mod (x * v) u ltac:(lia)). assert (M := Z.mod_pos_bound (x * v) u P). nia.
Qed.

(** What the cast gives: the list of the converted values, [x] being [cast x] in the unit of the axis. *)
Lemma cast_dates cal strict t r' q : (strict = false \/ rank r' <= rank (t_res t)) ->
  exists f, safe_cast cal strict t (dates (t_kind t) r' q) = Ok (map f q, rank (t_res t) <? rank r') /\
   forall u v, unit_as (t_res t) = Some u -> unit_as r' = Some v -> forall x,
     (rank r' <= rank (t_res t) -> f x * u = x * v) /\ f x * u <= x * v < f x * u + u.
Proof.
  intro H. unfold safe_cast. rewrite array_dtype_dates. cbn [obind]. rewrite kind_eqb_refl. cbn [negb ar_data dates].
  assert (Hw : (rank (t_res t) <? rank r') && strict = false).
  { destruct H as [->|H]; [apply andb_false_r|]. destruct (Z.ltb_spec (rank (t_res t)) (rank r')); [lia|reflexivity]. }
  rewrite Hw. destruct (Z.eqb_spec (rank (t_res t)) (rank r')) as [E|E].
  - exists (fun x => x). rewrite map_id. split; auto. intros u v Hu Hv x.
    rewrite (rank_inj _ _ E) in Hu. assert (u = v) by congruence. subst v. assert (P := unit_pos _ _ Hu). lia.
  - exists (astype cal (t_kind t) r' (t_res t)). split; auto. intros u v Hu Hv x.
    split; [intro; apply astype_coarse; auto|apply astype_fine; auto].
Qed.

Lemma axis_dates k r l t : temporal_axis (dates k r l) = Ok t -> int_axis_of_values l = Ok (t_cont t) /\ t_kind t = k /\ t_res t = r.
Proof.
  unfold temporal_axis. rewrite array_dtype_dates. cbn [obind ar_data dates].
  destruct (int_axis_of_values l); cbn [obind]; intro E; try discriminate. injection E as <-. auto.
Qed.

Lemma Forall2_znth {A B} (P : A -> B -> Prop) l m : Forall2 P l m ->
  zlen m = zlen l /\ forall j x, znth l j = Some x -> exists y, znth m j = Some y /\ P x y.
Proof.
  intro F. split. { unfold zlen. f_equal. symmetry. induction F; cbn [length]; congruence. }
  intros j x. unfold znth. destruct (j <? 0); [discriminate|]. generalize (Z.to_nat j) as n.
  induction F; intros [|n] H0; cbn [nth_error] in *; try discriminate.
  - injection H0 as <-. eauto.
  - apply IHF; auto.
Qed.

(** ** C121 *)
(** The values converted to the unit of the axis: the same dates, or, from a finer unit, the last
    date of the axis unit which is not after them; a warning is issued exactly in that case. *)
Theorem C121_safe_cast : forall cal strict t r' q u v,
  unit_as (t_res t) = Some u -> unit_as r' = Some v -> (strict = false \/ rank r' <= rank (t_res t)) ->
  exists q', safe_cast cal strict t (dates (t_kind t) r' q) = Ok (q', rank (t_res t) <? rank r') /\ zlen q' = zlen q /\
  forall j x, znth q j = Some x -> exists y, znth q' j = Some y /\
    (rank r' <= rank (t_res t) -> y * u = x * v) /\ y * u <= x * v < y * u + u.
Proof.
  intros cal strict t r' q u v Hu Hv H. destruct (cast_dates cal strict t r' q H) as (f & E & Hf).
  exists (map f q). split; auto. split; [apply zlen_map|]. intros j x Hj.
  exists (f x). rewrite znth_map, Hj. split; [reflexivity|]. apply Hf; auto.
Qed.
Print Assumptions C121_safe_cast.

(** An array already in the unit of the axis is returned as it is, years and months included. *)
Theorem C121_same_unit : forall cal strict t q,
  safe_cast cal strict t (dates (t_kind t) (t_res t) q) = Ok (q, false).
Proof.
  intros. unfold safe_cast. rewrite array_dtype_dates. cbn [obind]. rewrite kind_eqb_refl. cbn [negb ar_data dates].
  destruct (Z.ltb_spec (rank (t_res t)) (rank (t_res t))); [lia|]. rewrite Z.eqb_refl. reflexivity.
Qed.
Print Assumptions C121_same_unit.

(** What is refused: dates against durations, arrays which are not vectors of dates and, when the
    warnings are errors, the conversions which lose precision. *)
Theorem C121_refused : forall cal strict t a,
  ar_ndim a <> 1 \/ ar_c a = false \/ (forall k r, dtype_parse (ar_dtype a) <> Ok (k, r)) \/
  (exists k r, dtype_parse (ar_dtype a) = Ok (k, r) /\ (k <> t_kind t \/ strict = true /\ rank (t_res t) < rank r)) ->
  ~ exists y, safe_cast cal strict t a = Ok y.
Proof.
  intros cal strict t a H (y & E). revert E. unfold safe_cast, array_dtype.
  destruct (Z.eqb_spec (ar_ndim a) 1) as [E1|E1]; cbn [negb obind]; [|discriminate].
  destruct (ar_c a) eqn:E2; cbn [negb obind]; [|discriminate].
  destruct (dtype_parse (ar_dtype a)) as [[k r]| |] eqn:E3; cbn [obind]; try discriminate.
  destruct H as [H|[H|[H|(k' & r' & H & D)]]]; [tauto|discriminate|exfalso; eapply H; eauto|].
  assert (k' = k /\ r' = r) as [-> ->] by (split; congruence).
  destruct D as [D|[-> D]].
  - destruct k, (t_kind t); cbn [kind_eqb negb]; try discriminate; congruence.
  - destruct (kind_eqb k (t_kind t)); cbn [negb]; [|discriminate].
    destruct (Z.ltb_spec (rank (t_res t)) (rank r)); [|lia]. discriminate.
Qed.
Print Assumptions C121_refused.

(** [find_indexes] on ascending dates.  One row per date, whatever its unit: the two successive
    points of the axis around a date of the axis, (-1, -1) for a date before the first point or, when
    the unit is not finer than the one of the axis, after the last one. *)
Theorem C121_find_indexes : forall cal strict k r r' l t q u v,
  temporal_axis (dates k r l) = Ok t -> i_ascending l -> 1 < zlen l ->
  unit_as r = Some u -> unit_as r' = Some v -> (strict = false \/ rank r' <= rank r) ->
  exists rows, t_find_indexes cal strict t (dates k r' q) = Ok rows /\ zlen rows = zlen q /\
  forall j x, znth q j = Some x -> exists p, znth rows j = Some p /\
    (before_all l u (x * v) -> p = (-1, -1)) /\
    (after_all l u (x * v) -> rank r' <= rank r -> p = (-1, -1)) /\
    ((forall w, In w l -> w * u + u <= x * v) -> p = (-1, -1)) /\
    (~ before_all l u (x * v) -> ~ after_all l u (x * v) -> exists i lo hi,
       p = (i, i + 1) /\ znth l i = Some lo /\ znth l (i + 1) = Some hi /\ lo * u <= x * v <= hi * u).
Proof.
  intros cal strict k r r' l t q u v Ht Ha Hl Hu Hv Hs.
  destruct (axis_dates _ _ _ _ Ht) as (Ec & Ek & Er). subst k r.
  destruct (cast_dates cal strict t r' q Hs) as (f & E & Hf). specialize (Hf u v Hu Hv).
  unfold t_find_indexes. rewrite E. cbn [obind]. rewrite each_map.
  assert (P := unit_pos _ _ Hu).
  destruct (each_exists (fun x => olet r := i_find_indexes (t_cont t) (f x) in Ok (row r))
    (fun x p => row_of l (f x) p) q) as (rows & Er & F).
  { intros x _. destruct (find_row l (t_cont t) (f x) Ec Ha Hl) as (r & E1 & R). rewrite E1. cbn [obind]. eauto. }
  exists rows. split; auto. destruct (Forall2_znth _ _ _ F) as [Fl Fz]. split; auto.
  intros j x Hj. destruct (Fz j x Hj) as (p & Hp & R). exists p. split; auto.
  destruct (Hf x) as [Hc Hx]. clear Fz F Er Hp Hj Fl rows E.
  assert (I0 : exists w, In w l). { destruct l; [unfold zlen in Hl; cbn in Hl; lia|]. eexists; left; eauto. }
  destruct I0 as (w0 & I0).
  destruct R as [(-> & Out)|(i & lo & hi & -> & Zi & Zi1 & B)].
  - split; auto. split; auto. split; auto. intros Nb Na. exfalso. destruct Out as [B|A].
    + apply Nb. intros w Iw. assert (X := B w Iw). assert (f x + 1 <= w) by lia. nia.
    + apply Na. intros w Iw. assert (X := A w Iw). assert (w + 1 <= f x) by lia. nia.
  - assert (Ilo := znth_In _ _ _ Zi). assert (Ihi := znth_In _ _ _ Zi1).
    assert (Xlo : lo <= f x). { destruct B as [B|[-> _]]; [lia|]. assert (Y := Ha i (i + 1) _ _ Zi Zi1 ltac:(lia)). lia. }
    split. { intro H. assert (Y := H lo Ilo). nia. }
    split. { intros H Hr. specialize (Hc Hr). assert (Y := H hi Ihi). assert (Fx : f x <= hi) by lia; exfalso; nia. }
    split. { intro H. assert (Y := H hi Ihi). assert (Fx : f x <= hi) by lia; exfalso; nia. }
    intros Nb Na. exists i, lo, hi. split; auto. split; auto. split; auto. split; [nia|].
    destruct B as [B|[B Hi]]; [nia|].
    destruct (Z.le_gt_cases (x * v) (hi * u)) as [L|G]; auto. exfalso. apply Na. intros w Iw.
    destruct (In_znth _ _ Iw) as (j' & Zj' & Rj'). destruct (Z.eq_dec j' (i + 1)) as [->|Nj].
    + assert (w = hi) by congruence. nia.
    + assert (Y := Ha j' (i + 1) _ _ Zj' Zi1 ltac:(lia)). nia.
Qed.
Print Assumptions C121_find_indexes.

(** [find_index] on ascending dates: the nearest point or, outside of the axis and when [bounded] is
    false, -1; from a unit finer than the one of the axis, a point which is the nearest up to less
    than one unit of the axis. *)
Theorem C121_find_index : forall cal strict k r r' l t q bounded u v,
  temporal_axis (dates k r l) = Ok t -> i_ascending l ->
  unit_as r = Some u -> unit_as r' = Some v -> (strict = false \/ rank r' <= rank r) ->
  exists rows, t_find_index cal strict t (dates k r' q) bounded = Ok rows /\ zlen rows = zlen q /\
  forall j x, znth q j = Some x -> exists i, znth rows j = Some i /\
    ((i = -1 /\ bounded = false /\ (before_all l u (x * v) \/ after_all l u (x * v))) \/
     (exists w, znth l i = Some w /\ forall w', In w' l ->
        (rank r' <= rank r -> Z.abs (x * v - w * u) <= Z.abs (x * v - w' * u)) /\
        Z.abs (x * v - w * u) < Z.abs (x * v - w' * u) + u)).
Proof.
  intros cal strict k r r' l t q bounded u v Ht Ha Hu Hv Hs.
  destruct (axis_dates _ _ _ _ Ht) as (Ec & Ek & Er). subst k r.
  destruct (cast_dates cal strict t r' q Hs) as (f & E & Hf). specialize (Hf u v Hu Hv).
  unfold t_find_index. rewrite E. cbn [obind]. rewrite each_map.
  assert (P := unit_pos _ _ Hu). assert (W := int_axis_wf l _ Ec (or_introl Ha)).
  destruct (each_exists (fun x => i_find_index (t_cont t) (f x) bounded)
    (fun x i => (i = -1 /\ bounded = false /\ ~ i_inside (t_cont t) (f x)) \/ i_nearest_last (t_cont t) (f x) i) q) as (rows & Er & F).
  { intros x _. destruct bounded.
    - destruct (find_bounded (t_cont t) (f x) W) as (r & E1 & R). eauto.
    - destruct (find_free (t_cont t) (f x) W) as (r & E1 & R). exists r. split; auto. tauto. }
  exists rows. split; auto. destruct (Forall2_znth _ _ _ F) as [Fl Fz]. split; auto.
  intros j x Hj. destruct (Fz j x Hj) as (i & Hi & R). exists i. split; auto.
  destruct (Hf x) as [Hc Hx]. clear Fz F Er Hj Hi Fl rows E.
  destruct R as [(-> & Bd & N)|(w & Hw & Near)].
  - left. split; auto. split; auto.
    destruct (Exists_dec (fun w => w * u <= x * v) l (fun w => Z_le_dec _ _)) as [X|X].
    + right. intros w Iw. apply Exists_exists in X. destruct X as (w0 & I0 & X0).
      destruct (Z.lt_ge_cases (w * u) (x * v)) as [L|G]; auto. exfalso. apply N.
      destruct (In_znth _ _ I0) as (i0 & Z0 & _), (In_znth _ _ Iw) as (i1 & Z1 & _).
      destruct (Z.eq_dec (f x) w0) as [Q|Q].
      { exists i0, w0, i0, w0. split; [|split]; [apply (axis_at l _ _ _ Ec); auto|apply (axis_at l _ _ _ Ec); auto|lia]. }
      exists i0, w0, i1, w. split; [|split]; [apply (axis_at l _ _ _ Ec); auto|apply (axis_at l _ _ _ Ec); auto|]. nia.
    + left. intros w Iw. destruct (Z.lt_ge_cases (x * v) (w * u)); auto. exfalso. apply X. apply Exists_exists. exists w. split; [auto|lia].
  - right. exists w. assert (Zi := proj1 (axis_at l _ _ _ Ec) Hw). split; auto. intros w' Iw'.
    destruct (In_znth _ _ Iw') as (j' & Zj' & _).
    destruct (Near j' w' (proj2 (axis_at l _ _ _ Ec) Zj')) as [N1 N2].
    split.
    + intro Hr. specialize (Hc Hr). rewrite <- Hc. rewrite <- !Z.mul_sub_distr_r, !Z.abs_mul. nia.
    + destruct (Z.lt_trichotomy i j') as [L|[->|G]].
      * specialize (N2 L). assert (Y := Ha i j' _ _ Zi Zj' L).
        assert (Q : f x < w' \/ w' <= f x) by lia. nia.
      * assert (w = w') by congruence. subst. lia.
      * assert (Y := Ha j' i _ _ Zj' Zi G). nia.
Qed.
Print Assumptions C121_find_index.

(** A date of a finer unit, after the last point by less than a unit of the axis, is found in the
    axis: the documentation promises -1. *)
Theorem C121_after_last_refuted : exists t, temporal_axis (dates kDatetime64 kSecond [0; 10; 20]) = Ok t /\
  after_all [0; 10; 20] 1000 20001 /\
  t_find_indexes (fun _ _ _ x => x) false t (dates kDatetime64 kMillisecond [20001]) = Ok [(1, 2)] /\
  t_find_index (fun _ _ _ x => x) false t (dates kDatetime64 kMillisecond [20001]) false = Ok [2].
Proof.
  eexists. split; [vm_compute; reflexivity|]. split.
  { intros w [<-|[<-|[<-|[]]]]; lia. }
  split; vm_compute; reflexivity.
Qed.
Print Assumptions C121_after_last_refuted.

(** From a finer unit the point returned may not be the nearest. *)
Theorem C121_nearest_refuted : exists t, temporal_axis (dates kDatetime64 kDay [0; 3]) = Ok t /\
  t_find_index (fun _ _ _ x => x) false t (dates kDatetime64 kHour [40]) false = Ok [0] /\
  Z.abs (40 - 3 * 24) < Z.abs (40 - 0 * 24).
Proof. eexists. split; [vm_compute; reflexivity|]. split; [vm_compute; reflexivity|lia]. Qed.
Print Assumptions C121_nearest_refuted.

Example C121_ex : exists t, temporal_axis (dates kDatetime64 kHour [0; 24; 36]) = Ok t /\ i_ascending [0; 24; 36] /\
  t_find_indexes (fun _ _ _ x => x) true t (dates kDatetime64 kDay [-1; 0; 1; 2]) = Ok [(-1, -1); (0, 1); (1, 2); (-1, -1)] /\
  t_find_indexes (fun _ _ _ x => x) false t (dates kDatetime64 kMinute [1439; 1440; 1441]) = Ok [(0, 1); (1, 2); (1, 2)] /\
  t_find_index (fun _ _ _ x => x) false t (dates kDatetime64 kMinute [719; 720; -1]) false = Ok [0; 1; -1].
Proof.
  eexists. split; [vm_compute; reflexivity|]. split.
  { intros i j a b Hi Hj L. destruct (znth_Some _ _ _ Hi), (znth_Some _ _ _ Hj). cbn in *.
    assert (Ci : i = 0 \/ i = 1 \/ i = 2) by (unfold zlen in *; cbn in *; lia).
    assert (Cj : j = 0 \/ j = 1 \/ j = 2) by (unfold zlen in *; cbn in *; lia).
    destruct Ci as [Ci|[Ci|Ci]], Cj as [Cj|[Cj|Cj]]; subst i j; try lia; vm_compute in Hi, Hj;
    injection Hi as <-; injection Hj as <-; lia. }
  repeat split; vm_compute; reflexivity.
Qed.

(** The lengths of the units, written out: a week is 7 days, a day 24 hours, an hour 60 minutes, a minute
    60 seconds, and each of the smaller units is a thousandth of the previous one. *)
Theorem C121_units : forall calendar k x,
  astype calendar k kWeek kDay x = 7 * x /\ astype calendar k kDay kHour x = 24 * x /\ astype calendar k kHour kMinute x = 60 * x /\
  astype calendar k kMinute kSecond x = 60 * x /\ astype calendar k kSecond kMillisecond x = 1000 * x /\ astype calendar k kMillisecond kMicrosecond x = 1000 * x /\
  astype calendar k kMicrosecond kNanosecond x = 1000 * x /\ astype calendar k kNanosecond kPicosecond x = 1000 * x /\
  astype calendar k kPicosecond kFemtosecond x = 1000 * x /\ astype calendar k kFemtosecond kAttosecond x = 1000 * x /\
  astype calendar k kDay kWeek x = x / 7 /\ astype calendar k kHour kDay x = x / 24 /\ astype calendar k kMinute kHour x = x / 60 /\ astype calendar k kSecond kMinute x = x / 60.
Proof.
  intros calendar k x. unfold astype. cbn [unit_as].
  assert (F : forall y u v m, 0 < v -> u = m * v -> (y * u) / v = m * y) by (intros y u v m V ->; replace (y * (m * v)) with (m * y * v) by ring; apply Z.div_mul; lia).
  assert (G : forall y u v m, 0 < u -> 0 < m -> v = m * u -> (y * u) / v = y / m) by (intros y u v m U M ->; rewrite Z.div_mul_cancel_r by lia; reflexivity).
  repeat split; first [apply F; [reflexivity|reflexivity] | apply G; [reflexivity|reflexivity|reflexivity]].
Qed.
Print Assumptions C121_units.
