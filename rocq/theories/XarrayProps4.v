(** Theorems about the grids built from labelled arrays (C105). *)
From Coq Require Import Permutation.
From Verif Require Import Base BaseProofs MathModel AxisModel AxisSpec AxisProofs IntAxisModel IntAxisProofs GridModel GridSpec GridProofs
  XarrayModel XarraySpec XarrayProofs XarrayProps XarrayProofs2.
Open Scope Z_scope.

Lemma identify_spec : forall da units, (forall n, identify da units = Some n -> first_with da units n) /\ (identify da units = None -> ~ with_units da units).
Proof.
  intros da units. assert (P : forall n, identify da units = Some n -> first_with da units n).
  { intros n H. unfold identify, first_with in *. revert H. generalize (da_coords da) as l. induction l as [|c l IH]; cbn [find]; intro H; [discriminate|].
    destruct (co_units c) as [u|] eqn:U; [destruct (mem u units) eqn:M|].
    - injection H as <-. exists [], c, l, u. split; [reflexivity|]. split; [reflexivity|]. split; [exact U|]. split; [apply mem_in; exact M|]. intros b [].
    - destruct (IH H) as (before & d & after & w & E & Nm & Ud & Hu & B). exists (c :: before), d, after, w. rewrite E. split; [reflexivity|]. split; [exact Nm|]. split; [exact Ud|]. split; [exact Hu|].
      intros b [<-|Hb] t Ht; [|eapply B; eassumption]. rewrite U in Ht. injection Ht as <-. intro X. apply mem_in in X. congruence.
    - destruct (IH H) as (before & d & after & w & E & Nm & Ud & Hu & B). exists (c :: before), d, after, w. rewrite E. split; [reflexivity|]. split; [exact Nm|]. split; [exact Ud|]. split; [exact Hu|].
      intros b [<-|Hb] t Ht; [|eapply B; eassumption]. congruence. }
  split; [exact P|]. intros H (c & u & Hc & U & Hu). unfold identify in H.
  destruct (find _ (da_coords da)) eqn:F; [discriminate|]. pose proof (find_none _ _ F c Hc) as X. cbv beta in X. rewrite U in X. apply mem_in in Hu. congruence.
Qed.
Lemma dims_spec : forall da geodetic n names, dims_from_data_array da geodetic n = Ok names -> length (nd_shape (da_values da)) = n /\
  forall x y, names = [x; y] -> horizontal da geodetic x y.
Proof.
  intros da geodetic n names H. unfold dims_from_data_array in H. destruct (Nat.eqb_spec (length (nd_shape (da_values da))) n) as [E|]; cbn [negb] in H; [|discriminate].
  split; [exact E|]. intros x y ->. destruct geodetic; cbn [negb] in H; unfold horizontal.
  - destruct (identify da longitude_units) as [lon|] eqn:I; [|discriminate]. destruct (identify da latitude_units) as [lat|] eqn:J; [|discriminate]. injection H as <- <-.
    split; [exact (proj1 (identify_spec da cf_longitude) lon I)|exact (proj1 (identify_spec da cf_latitude) lat J)].
  - assert (H' : firstn 2 (map co_name (da_coords da)) = [x; y]) by (inversion H; reflexivity). destruct (da_coords da) as [|c [|d rest]]; cbn in H'; try discriminate. injection H' as <- <-. eauto 10.
Qed.

Ltac step H := match type of H with (olet _ := ?e in _) = Ok _ => let E := fresh "E" in destruct e eqn:E; cbn [obind] in H; [|discriminate|discriminate] end.
Lemma faithful_intro : forall da inc geodetic dim nx ny rest zx zy zs a time x,
  finish dim inc (zx :: zy :: zs) a (nx :: ny :: rest) time = Ok x -> transpose da (nx :: ny :: rest) = Ok a -> da_ok da -> horizontal da geodetic nx ny ->
  z_reachable zx -> z_reachable zy -> Forall z_reachable zs -> axis_of_dim da geodetic nx zx -> axis_of_dim da false ny zy -> Forall2 (axis_of_dim da false) rest zs ->
  (forall n, time = Some n <-> In n rest /\ temporal_dim da n) -> faithful da inc geodetic x.
Proof.
  intros da inc geodetic dim nx ny rest zx zy zs a time x F T OK Hz RX RY RS AX AY AS Ht.
  destruct (transpose_spec da _ a OK T) as (P & ND & Lsh & Ce & _). assert (Ln : length rest = length zs) by (clear -AS; induction AS; cbn [length]; auto).
  assert (Len : length (nd_shape a) = length (zx :: zy :: zs)) by (rewrite Lsh; cbn [length]; lia).
  destruct (finish_spec dim inc (zx :: zy :: zs) a _ time x ltac:(constructor; [exact RX|constructor; assumption]) Len F) as (Dn & Dt & c & V & SF & _ & _ & As).
  exists c, nx, ny, rest, zx, zy, zs. rewrite Dn, Dt. split; [exact V|]. split; [reflexivity|]. split; [exact P|]. split; [exact Hz|]. split; [exact AX|]. split; [exact AY|]. split; [exact AS|].
  split; [|split; [exact As|exact Ht]]. apply (represents_intro da _ _ _ _ a); auto. cbn [length]. lia.
Qed.

Lemma others_in : forall da x y n, In n (others da x y) <-> In n (da_dims da) /\ n <> x /\ n <> y.
Proof.
  intros da x y n. unfold others. rewrite filter_In. destruct (String.eqb_spec n x), (String.eqb_spec n y); cbn [negb andb]; intuition congruence.
Qed.
Lemma values_excl : forall da n c, coord_of da n = Ok c -> (temporal_dim da n <-> is_date_or_delta c = true) /\ (dates da n <-> is_time c = true).
Proof.
  intros da n c H. unfold temporal_dim, dates, durations, is_date_or_delta, is_time. destruct (co_values c) as [v|v|v] eqn:E; split; split; intro X; try discriminate; try reflexivity.
  - destruct X as [(c' & v' & H' & E')|(c' & v' & H' & E')]; rewrite H in H'; injection H' as <-; congruence.
  - destruct X as (c' & v' & H' & E'); rewrite H in H'; injection H' as <-; congruence.
  - left. exists c, v. auto.
  - exists c, v. auto.
  - right. exists c, v. auto.
  - destruct X as (c' & v' & H' & E'); rewrite H in H'; injection H' as <-; congruence.
Qed.
Lemma axis_dim : forall da circle n c a, coord_of da n = Ok c -> make_axis c circle = Ok a -> reachable a /\ axis_of_dim da circle n (ZReal a).
Proof. intros da circle n c a H M. destruct (make_axis_spec c circle a M) as [R A]. split; [exact R|]. exists c. auto. Qed.
Lemma time_dim : forall da n c i, coord_of da n = Ok c -> make_temporal c = Ok i -> i_reachable i /\ axis_of_dim da false n (ZTime i).
Proof. intros da n c i H M. destruct (make_temporal_spec c i M) as [R A]. split; [exact R|]. exists c. auto. Qed.

Theorem C105_grid2 : forall da inc geodetic x, da_ok da -> xgrid2 da inc geodetic = Ok x -> faithful da inc geodetic x.
Proof.
  intros da inc geodetic x OK H. unfold xgrid2 in H. step H. destruct (dims_spec _ _ _ _ E) as [_ Hz]. destruct a as [|nx [|ny [|]]]; try discriminate.
  step H. step H. step H. step H. step H.
  destruct (axis_dim _ _ _ _ _ E0 E1) as [RX AX]. destruct (axis_dim _ _ _ _ _ E2 E3) as [RY AY].
  apply (faithful_intro da inc geodetic 2 nx ny [] _ _ [] _ _ x H); [eassumption|exact OK|exact (Hz nx ny eq_refl)|exact RX|exact RY|repeat constructor; assumption|exact AX|exact AY|repeat constructor; assumption|].
  intro n. split; [discriminate|intros [[] _]].
Qed.
Theorem C105_grid3 : forall order da inc geodetic x, da_ok da -> (forall l, Permutation (order l) l) -> xgrid3 order da inc geodetic = Ok x -> faithful da inc geodetic x.
Proof.
  intros order da inc geodetic x OK Or H. unfold xgrid3 in H. step H. destruct (dims_spec _ _ _ _ E) as [_ Hz]. destruct a as [|nx [|ny [|]]]; try discriminate.
  destruct (order (others da nx ny)) as [|nz rest]; [discriminate|]. step H. step H. step H. step H. step H. step H. step H. step H.
  destruct (axis_dim _ _ _ _ _ E2 E3) as [RX AX]. destruct (axis_dim _ _ _ _ _ E4 E5) as [RY AY].
  destruct (values_excl da nz a E0) as [VE _].
  assert (Z : z_reachable a5 /\ axis_of_dim da false nz a5).
  { destruct (is_date_or_delta a).
    - destruct (make_temporal a) as [t| |] eqn:M; cbn [obind] in E1; try discriminate. injection E1 as <-. injection E6 as <-. exact (time_dim _ _ _ _ E0 M).
    - injection E1 as <-. destruct (make_axis a false) as [r| |] eqn:M; cbn [obind] in E6; try discriminate. injection E6 as <-. exact (axis_dim _ _ _ _ _ E0 M). }
  destruct Z as [RZ AZ].
  apply (faithful_intro da inc geodetic 3 nx ny [nz] _ _ [a5] _ _ x H); [eassumption|exact OK|exact (Hz nx ny eq_refl)|exact RX|exact RY|repeat constructor; assumption|exact AX|exact AY|repeat constructor; assumption|].
  intro n. destruct (is_date_or_delta a); split; intro X.
  - injection X as <-. split; [left; reflexivity|apply VE; reflexivity].
  - destruct X as [[<-|[]] _]. reflexivity.
  - discriminate.
  - destruct X as [[<-|[]] X]. apply VE in X. discriminate.
Qed.
Print Assumptions C105_grid3.
Theorem C105_grid4 : forall order da inc geodetic x, da_ok da -> (forall l, Permutation (order l) l) -> xgrid4 order da inc geodetic = Ok x -> faithful da inc geodetic x.
Proof.
  intros order da inc geodetic x OK Or H. unfold xgrid4 in H. step H. destruct (dims_spec _ _ _ _ E) as [_ Hz]. destruct a as [|nx [|ny [|]]]; try discriminate.
  destruct (order (others da nx ny)) as [|n1 [|n2 [|]]]; try discriminate. step H. step H. step H. step H.
  destruct (values_excl da n1 a E0) as [V1 D1]. destruct (values_excl da n2 a1 E2) as [V2 D2].
  assert (NoDelta : forall n c r, coord_of da n = Ok c -> make_axis c false = Ok r -> is_date_or_delta c = false).
  { intros n c r _ M. unfold make_axis in M. unfold is_date_or_delta. destruct (co_dims c) as [|? [|]]; try discriminate. destruct (co_values c); try discriminate. reflexivity. }
  destruct (is_time a1) eqn:T2.
  - (* the second one is the time *)
    destruct a0 as [|]; [discriminate|]. destruct (make_temporal a1) as [t| |] eqn:M; cbn [obind] in E3; try discriminate. injection E3 as <-.
    cbv beta iota zeta in H. step H. step H. step H. step H. cbn [obind] in H. step H. step H.
    destruct (axis_dim _ _ _ _ _ E3 E4) as [RX AX]. destruct (axis_dim _ _ _ _ _ E5 E6) as [RY AY].
    destruct (time_dim _ _ _ _ E2 M) as [RZ AZ]. destruct (axis_dim _ _ _ _ _ E0 E7) as [RU AU].
    apply (faithful_intro da inc geodetic 4 nx ny [n2; n1] _ _ [ZTime t; ZReal _] _ _ x H); [eassumption|exact OK|exact (Hz nx ny eq_refl)|exact RX|exact RY|repeat constructor; assumption|exact AX|exact AY|repeat constructor; assumption|].
    intro n. split; intro X.
    + injection X as <-. split; [left; reflexivity|]. left. apply D2. reflexivity.
    + destruct X as [[<-|[<-|[]]] X]; [reflexivity|]. apply V1 in X. rewrite (NoDelta n1 a _ E0 E7) in X. discriminate.
  - injection E3 as <-. cbv beta iota zeta in H. step H. step H. step H. step H.
    destruct (axis_dim _ _ _ _ _ E3 E4) as [RX AX]. destruct (axis_dim _ _ _ _ _ E5 E6) as [RY AY].
    step H. step H. step H. destruct (axis_dim _ _ _ _ _ E2 E8) as [RU AU].
    destruct (is_time a) eqn:T1.
    + destruct (make_temporal a) as [t| |] eqn:M; cbn [obind] in E1; try discriminate. injection E1 as <-. injection E7 as <-. destruct (time_dim _ _ _ _ E0 M) as [RZ AZ].
      apply (faithful_intro da inc geodetic 4 nx ny [n1; n2] _ _ [ZTime t; ZReal _] _ _ x H); [eassumption|exact OK|exact (Hz nx ny eq_refl)|exact RX|exact RY|repeat constructor; assumption|exact AX|exact AY|repeat constructor; assumption|].
      intro n. split; intro X.
      * injection X as <-. split; [left; reflexivity|]. left. apply D1. reflexivity.
      * destruct X as [[<-|[<-|[]]] X]; [reflexivity|]. apply V2 in X. rewrite (NoDelta n2 a1 _ E2 E8) in X. discriminate.
    + injection E1 as <-. destruct (make_axis a false) as [r| |] eqn:M; cbn [obind] in E7; try discriminate. injection E7 as <-. destruct (axis_dim _ _ _ _ _ E0 M) as [RZ AZ].
      apply (faithful_intro da inc geodetic 4 nx ny [n1; n2] _ _ [ZReal r; ZReal _] _ _ x H); [eassumption|exact OK|exact (Hz nx ny eq_refl)|exact RX|exact RY|repeat constructor; assumption|exact AX|exact AY|repeat constructor; assumption|].
      intro n. split; [discriminate|]. intros [[<-|[<-|[]]] X]; [apply V1 in X; rewrite (NoDelta n1 a _ E0 M) in X|apply V2 in X; rewrite (NoDelta n2 a1 _ E2 E8) in X]; discriminate.
Qed.
Print Assumptions C105_grid4.
(** The grid built by [RegularGridInterpolator] is the labelled array: its dimensions are those of
    the array, its axes are made of their coordinates, the first two being the longitude and the
    latitude of a geodetic array, and each cell is the element with the same coordinates. *)
Theorem C105_faithful : forall order da inc geodetic x, da_ok da -> (forall l, Permutation (order l) l) -> regular_grid order da inc geodetic = Ok x ->
  faithful da inc geodetic x /\ length (xg_dims x) = length (nd_shape (da_values da)).
Proof.
  intros order da inc geodetic x OK Or H. assert (F : faithful da inc geodetic x).
  { unfold regular_grid in H. destruct (length _) as [|[|[|[|[|]]]]]; try discriminate; [eapply C105_grid2|eapply C105_grid3|eapply C105_grid4]; eassumption. }
  split; [exact F|]. destruct F as (c & nx & ny & rest & zx & zy & zs & _ & _ & P & _). rewrite (Permutation_length P). destruct OK as (_ & L & _). lia.
Qed.
Print Assumptions C105_faithful.
(** Other numbers of dimensions, and geodetic arrays without longitude or latitude, are refused. *)
Theorem C105_refused : forall order da inc geodetic,
  (let n := length (nd_shape (da_values da)) in (n < 2 \/ 4 < n)%nat -> exists w, regular_grid order da inc geodetic = Throw w) /\
  (~ with_units da cf_longitude \/ ~ with_units da cf_latitude -> exists w, regular_grid order da inc true = Throw w).
Proof.
  intros order da inc geodetic. split.
  - cbv zeta. intro H. unfold regular_grid. destruct (length _) as [|[|[|[|[|]]]]]; try (eexists; reflexivity); lia.
  - intro H. assert (D : forall n, n = length (nd_shape (da_values da)) -> exists w, dims_from_data_array da true n = Throw w).
    { intros n ->. unfold dims_from_data_array. rewrite Nat.eqb_refl. cbn [negb].
      destruct (identify da longitude_units) as [lon|] eqn:I; [|eexists; reflexivity]. destruct (identify da latitude_units) as [lat|] eqn:J; [|eexists; reflexivity]. exfalso.
      assert (W : forall units n, identify da units = Some n -> with_units da units).
      { intros units n X. apply (proj1 (identify_spec da units)) in X as (b & c & af & u & E & _ & U & Hu & _). exists c, u. split; [rewrite E; apply in_or_app; right; left; reflexivity|auto]. }
      destruct H as [H|H]; apply H; eapply W; eassumption. }
    unfold regular_grid. destruct (length (nd_shape (da_values da))) as [|[|[|[|[|]]]]] eqn:L; try (eexists; reflexivity);
      unfold xgrid2, xgrid3, xgrid4; (destruct (D _ eq_refl) as [w ->]); eexists; reflexivity.
Qed.

(** ** The order in which the dimensions are stored *)
Lemma dims_same : forall da da' geodetic n names, same_data da da' -> da_ok da -> da_ok da' -> dims_from_data_array da geodetic n = Ok names -> dims_from_data_array da' geodetic n = Ok names.
Proof.
  intros da da' geodetic n names (C & P & _) (_ & L & _) (_ & L' & _) H. unfold dims_from_data_array, identify in *. rewrite <- C, L', <- (Permutation_length P), <- L. exact H.
Qed.
Lemma third_dim : forall da da' order x y z a, same_data da da' -> da_ok da -> (forall l, Permutation (order l) l) -> transpose da [x; y; z] = Ok a -> exists rest, order (others da' x y) = z :: rest.
Proof.
  intros da da' order x y z a (_ & P & _) OK Or T. destruct (transpose_spec da _ a OK T) as (Pn & ND & _).
  assert (Iz : In z (order (others da' x y))).
  { apply (Permutation_in _ (Permutation_sym (Or _))). apply others_in. inversion ND as [|? ? N1 ND1]; subst. inversion ND1 as [|? ? N2 _]; subst.
    split; [apply (Permutation_in _ P), (Permutation_in _ Pn); cbn; tauto|]. split; intros ->; [apply N1|apply N2]; cbn; tauto. }
  destruct (order (others da' x y)) as [|w rest] eqn:E; [destruct Iz|]. exists rest. f_equal.
  assert (Iw : In w (others da' x y)) by (apply (Permutation_in _ (Or _)); rewrite E; left; reflexivity). apply others_in in Iw as (D & Nx & Ny).
  apply (Permutation_in _ (Permutation_sym P)) in D. apply (Permutation_in _ (Permutation_sym Pn)) in D. destruct D as [<-|[<-|[<-|[]]]]; [contradiction|contradiction|reflexivity].
Qed.
(** A labelled array of two or three dimensions gives the same grid, whatever the order in which its
    dimensions are stored. *)
Theorem C105_storage : forall order order' da da' inc geodetic x, same_data da da' -> da_ok da -> da_ok da' ->
  (forall l, Permutation (order l) l) -> (forall l, Permutation (order' l) l) -> (length (nd_shape (da_values da)) <= 3)%nat ->
  regular_grid order da inc geodetic = Ok x -> exists x', regular_grid order' da' inc geodetic = Ok x' /\ same_grid x x'.
Proof.
  intros order order' da da' inc geodetic x Sd OK OK' Or Or' L3 H.
  assert (Ln : length (nd_shape (da_values da')) = length (nd_shape (da_values da))).
  { destruct OK as (_ & L & _), OK' as (_ & L' & _). rewrite L, L'. symmetry. apply Permutation_length. apply Sd. }
  unfold regular_grid in *. rewrite Ln. destruct (length (nd_shape (da_values da))) as [|[|[|[|?]]]]; try discriminate; [| |lia].
  - unfold xgrid2 in *. step H. rewrite (dims_same _ _ _ _ _ Sd OK OK' E). cbn [obind]. destruct a as [|nx [|ny [|]]]; try discriminate.
    rewrite !(coord_same da da' _ Sd). step H. step H. step H. step H. step H. cbn [obind]. rewrite E1. cbn [obind]. rewrite E3. cbn [obind].
    destruct (transpose_same _ _ _ _ Sd OK OK' E4) as (a' & -> & A). cbn [obind]. eapply finish_agree; eassumption.
  - unfold xgrid3 in *. step H. rewrite (dims_same _ _ _ _ _ Sd OK OK' E). cbn [obind]. destruct a as [|nx [|ny [|]]]; try discriminate.
    destruct (order (others da nx ny)) as [|nz rest]; [discriminate|]. step H. step H. step H. step H. step H. step H. step H. step H.
    destruct (third_dim da da' order' nx ny nz _ Sd OK Or' E7) as [rest' ->]. rewrite !(coord_same da da' _ Sd). rewrite E0. cbn [obind]. rewrite E1. cbn [obind]. rewrite E2. cbn [obind]. rewrite E3. cbn [obind].
    rewrite E4. cbn [obind]. rewrite E5. cbn [obind]. rewrite E6. cbn [obind]. destruct (transpose_same _ _ _ _ Sd OK OK' E7) as (a' & -> & A). cbn [obind]. eapply finish_agree; eassumption.
Qed.
Print Assumptions C105_storage.
