(** Theorems about the third and fourth dimensions of a labelled array (C107, continued): with the
    same method along both, the enumeration order has no effect. *)
From Coq Require Import Permutation.
From Verif Require Import Base BaseProofs MathModel AxisModel AxisSpec AxisProofs AxisProofs2 AxisProofs5 IntAxisModel IntAxisProofs GridModel GridSpec GridProofs GridProofs4
  XarrayModel XarraySpec XarrayProofs XarrayProps XarrayProofs2 XarrayProps3 XarrayProps4 XarrayProps5 XarrayProps6.
Open Scope Z_scope.

Definition up (z : zaxis) : zaxis := if z_is_ascending z then z else match z_py_flip true z with Ok z' => z' | _ => z end.
Definition down (z : zaxis) : bool := negb (z_is_ascending z).
Lemma put_at : forall pre z t w, put (pre ++ z :: t) (length pre) w = pre ++ w :: t.
Proof. induction pre as [|a pre IH]; intros z t w; cbn [app length put]; [reflexivity|]. rewrite IH. reflexivity. Qed.
Lemma flip_total : forall z, exists z', z_py_flip true z = Ok z'.
Proof. intros [a|c]; cbn [z_py_flip py_flip obind]; eauto. Qed.
Lemma increase_seq : forall axes pre done a, (length pre + length axes <= length (nd_shape a))%nat ->
  exists a', increase true (pre ++ axes) (length pre) (seq (length pre) (length axes)) done a = (pre ++ map up axes, Ok (rev done ++ seq (length pre) (length axes), a')) /\
    nd_shape a' = nd_shape a /\ forall i, nd_cell a' i = nd_cell a (mirrors (repeat false (length pre) ++ map down axes) (nd_shape a) i).
Proof.
  induction axes as [|z axes IH]; intros pre done a L; cbn [length seq increase map].
  - exists a. rewrite !app_nil_r. split; [reflexivity|]. split; [reflexivity|]. intro i. rewrite mirrors_none; [reflexivity|]. apply Forall_forall. intros f F. apply repeat_spec in F. exact F.
  - cbn [length] in L. rewrite nth_error_app2, Nat.sub_diag by lia. cbn [nth_error].
    assert (A : forall w, pre ++ w :: axes = (pre ++ [w]) ++ axes) by (intro w; rewrite <- app_assoc; reflexivity).
    assert (Ln : forall w : zaxis, length (pre ++ [w]) = S (length pre)) by (intro w; rewrite app_length; cbn [length]; lia).
    destruct (z_is_ascending z) eqn:As.
    + specialize (IH (pre ++ [z]) (length pre :: done) a). rewrite Ln in IH. destruct IH as (a' & E & S & C); [lia|]. exists a'. rewrite A, E. unfold up at 2, down at 1. rewrite As. cbn [negb rev].
      split; [rewrite <- !app_assoc; reflexivity|]. split; [exact S|]. intro i. rewrite C, mirrors_skip. reflexivity.
    + destruct (flip_total z) as [z' F]. rewrite F. unfold numpy_flip. destruct (Nat.ltb_spec (length pre) (length (nd_shape a))); [|lia]. rewrite put_at.
      specialize (IH (pre ++ [z']) (length pre :: done) (NdArray (nd_shape a) (fun i => nd_cell a (mirror (length pre) (nd_shape a) i)))). rewrite Ln in IH. cbn [nd_shape nd_cell] in IH.
      destruct IH as (a' & E & S & C); [lia|]. exists a'. rewrite A, E. unfold up at 2, down at 1. rewrite As, F. cbn [negb rev].
      split; [rewrite <- !app_assoc; reflexivity|]. split; [exact S|]. intro i. rewrite C, mirror_mirrors. reflexivity.
Qed.
(** What [finish] builds, exactly. *)
Lemma finish_exact : forall dim inc axes a names time x, (length axes <= length (nd_shape a))%nat -> 
  (finish dim inc axes a names time = Ok x ->
   exists a' c, core_new dim (map (if inc then up else fun z => z) axes) a' = Ok c /\ xg_dims x = names /\ xg_time x = time /\ view (xg_heap x) (xg_grid x) = Ok c /\
     nd_shape a' = nd_shape a /\ (forall i, nd_cell a' i = nd_cell a (mirrors (map (if inc then down else fun _ => false) axes) (nd_shape a) i))).
Proof.
  intros dim inc axes a names time x L F. unfold finish, py_grid in F. destruct inc; cbn [flag] in F.
  - change (String.eqb "inplace" "inplace") with true in F. cbv iota in F.
    destruct (increase_seq axes [] [] a) as (a' & E & S & C); [cbn [length]; lia|]. cbn [length app rev repeat] in *. rewrite E in F. cbn [obind] in F.
    destruct (view (map up axes) (PyGrid dim (seq 0 (length axes)) a')) as [c| |] eqn:V; cbn [obind] in F; try discriminate. injection F as <-. exists a', c. cbn [xg_dims xg_time xg_heap xg_grid].
    assert (Ec : core_new dim (map up axes) a' = Ok c).
    { unfold view in V. cbn [pg_axes pg_dim pg_array] in V. pose proof (deref_seq [] (map up axes)) as D. cbn [length app] in D. rewrite map_length in D. rewrite D in V. exact V. }
    split; [exact Ec|]. split; [reflexivity|]. split; [reflexivity|]. split; [exact V|]. split; [exact S|exact C].
  - cbn [obind] in F. destruct (view axes (PyGrid dim (seq 0 (length axes)) a)) as [c| |] eqn:V; cbn [obind] in F; try discriminate. injection F as <-. exists a, c. cbn [xg_dims xg_time xg_heap xg_grid].
    assert (Ec : core_new dim axes a = Ok c).
    { unfold view in V. cbn [pg_axes pg_dim pg_array] in V. pose proof (deref_seq [] axes) as D. cbn [length app] in D. rewrite D in V. exact V. }
    rewrite map_id. split; [exact Ec|]. split; [reflexivity|]. split; [reflexivity|]. split; [exact V|]. split; [reflexivity|]. intro i. rewrite mirrors_none; [reflexivity|].
    apply Forall_forall. intros f Hf. apply in_map_iff in Hf as (? & <- & _). reflexivity.
Qed.

(** ** Two grids whose last dimensions are exchanged *)
Definition exchanged (g g' : grid4) : Prop :=
  exists A B, g4_z g = ZReal A /\ g4_u g = B /\ g4_z g' = ZReal B /\ g4_u g' = A /\ g4_x g' = g4_x g /\ g4_y g' = g4_y g /\
    forall i j k l, grid_value (g4_array g') [i; j; l; k] = grid_value (g4_array g) [i; j; k; l].
Lemma linear_exchange : forall z z0 z1 u u0 u1 e00 e10 e01 e11, ~ (z0 == z1)%Q -> ~ (u0 == u1)%Q ->
  same_value (linear_z u u0 u1 (linear_z z z0 z1 e00 e10) (linear_z z z0 z1 e01 e11)) (linear_z z z0 z1 (linear_z u u0 u1 e00 e01) (linear_z u u0 u1 e10 e11)).
Proof.
  intros z z0 z1 u u0 u1 e00 e10 e01 e11 Nz Nu. unfold linear_z. cbv zeta.
  destruct (Qeq_bool (z1 - z0) 0) eqn:E; [apply Qeq_bool_iff in E; exfalso; apply Nz; lra|]. destruct (Qeq_bool (u1 - u0) 0) eqn:E'; [apply Qeq_bool_iff in E'; exfalso; apply Nu; lra|].
  destruct e00, e10, e01, e11; cbn [nan2 same_value]; auto. field.
  assert (~ (z1 - z0 == 0)%Q) by (intro; apply Nz; lra). assert (~ (u1 - u0 == 0)%Q) by (intro; apply Nu; lra).
  auto.
Qed.
Lemma nearest_exchange : forall z z0 z1 u u0 u1 e00 e10 e01 e11,
  nearest_z u u0 u1 (nearest_z z z0 z1 e00 e10) (nearest_z z z0 z1 e01 e11) = nearest_z z z0 z1 (nearest_z u u0 u1 e00 e01) (nearest_z u u0 u1 e10 e11).
Proof. intros. unfold nearest_z. cbv zeta. destruct (Qltb _ _), (Qltb _ _); reflexivity. Qed.

Lemma quad_found : forall d e x y z u a g f zf uf be qx qy qz qu i0 i1 j0 j1 k0 k1 l0 l1, new_grid4 x y z u a = Ok g -> axis_ok x -> axis_ok y -> axis_ok u -> z_ok z -> nd_shape a = [len x; len y; z_size z; len u] ->
  find_indexes x qx = Ok (Some (i0, i1)) -> find_indexes y qy = Ok (Some (j0, j1)) -> z_find_indexes z qz = Ok (Some (k0, k1)) -> find_indexes u qu = Ok (Some (l0, l1)) ->
  0 <= i0 < len x -> 0 <= i1 < len x -> 0 <= j0 < len y -> 0 <= j1 < len y -> 0 <= k0 < z_size z -> 0 <= k1 < z_size z -> 0 <= l0 < len u -> 0 <= l1 < len u ->
  let c i j k l := nd_cell a [i; j; k; l] in
  let v k l := evaluate d e f (Point (normalize_coordinate_min x qx (fval (a_cont x) i0)) qy) (Point (fval (a_cont x) i0) (fval (a_cont y) j0)) (Point (fval (a_cont x) i1) (fval (a_cont y) j1))
     (c i0 j0 k l) (c i0 j1 k l) (c i1 j0 k l) (c i1 j1 k l) in
  quadrivariate d e g f zf uf be qx qy qz qu = Ok (uf qu (fval (a_cont u) l0) (fval (a_cont u) l1)
     (zf qz (z_val z k0) (z_val z k1) (v k0 l0) (v k1 l0)) (zf qz (z_val z k0) (z_val z k1) (v k0 l1) (v k1 l1))).
Proof.
  intros d e x y z u a g f zf uf be qx qy qz qu i0 i1 j0 j1 k0 k1 l0 l1 G OX OY OU OZ Sh FX FY FZ FU I0 I1 J0 J1 K0 K1 L0 L1 c v.
  assert (Eg : g = Grid4 x y z u a).
  { unfold new_grid4 in G. destruct (new_grid3_dim 4 x y z a); cbn [obind] in G; try discriminate. destruct (check_shape a 3 _); cbn [obind] in G; try discriminate. destruct (a_is_circle u); [discriminate|]. injection G as <-. reflexivity. }
  subst g. unfold quadrivariate. cbn [g4_x g4_y g4_z g4_u g4_array]. rewrite FX. cbn [obind]. rewrite FY. cbn [obind]. rewrite FZ. cbn [obind]. rewrite FU. cbn [obind].
  rewrite !axis_at_ok by (try apply OX; try apply OY; assumption). cbn [obind].
  assert (Za : forall k, 0 <= k < z_size z -> z_at z k = Ok (z_val z k)).
  { intros k Hk. assert (X : z_at_index z k (z_val z k)) by (apply z_at_iff; [exact OZ|auto]). destruct z as [r|t]; cbn [z_at_index z_at z_val z_size] in *.
    - apply axis_at_ok; [apply OZ|exact Hk].
    - destruct X as (w & Hw & Ew). unfold i_at in Hw. rewrite Hw. cbn [obind]. rewrite Ew. reflexivity. }
  
  assert (Gv : forall i j k l, 0 <= i < len x -> 0 <= j < len y -> 0 <= k < z_size z -> 0 <= l < len u -> grid_value a [i; j; k; l] = Ok (c i j k l)).
  { intros i j k l Hi Hj Hk Hl. unfold grid_value. rewrite Sh. cbn [in_shape]. repeat (match goal with |- context [Z.leb ?p ?q] => destruct (Z.leb_spec p q); [|lia] | |- context [Z.ltb ?p ?q] => destruct (Z.ltb_spec p q); [|lia] end). reflexivity. }
  repeat (first [rewrite axis_at_ok by (first [apply OX | apply OY | apply OU | assumption]) | rewrite Za by assumption | rewrite Gv by assumption]; cbn [obind]). reflexivity.
Qed.
Lemma distinct_bounds : forall a x i0 i1, axis_ok a -> 1 < len a -> find_indexes a x = Ok (Some (i0, i1)) -> ~ (fval (a_cont a) i0 == fval (a_cont a) i1)%Q.
Proof.
  intros a x i0 i1 OK L F. assert (N : normalize_coordinate a (normalize_coordinate a x) = normalize_coordinate a x).
  { destruct (proj1 (proj2 OK)) as [C|C]; [rewrite !normalize_none by exact C; reflexivity|]. apply (normalize_angle_axis a x (proj1 OK) C). }
  destruct (find_indexes_spec a x _ OK L eq_refl N) as (r & H & S). rewrite F in H. injection H as <-. destruct S as (R0 & R1 & S).
  apply fval_neq; [apply OK|exact R0|exact R1|]. lia.
Qed.
Lemma quad_exchange : forall d e x y r s a b g g' f m zf be qx qy qz qu, new_grid4 x y (ZReal r) s a = Ok g -> new_grid4 x y (ZReal s) r b = Ok g' ->
  axis_ok x -> axis_ok y -> axis_ok r -> axis_ok s -> 1 < len x -> 1 < len y -> 1 < len r -> 1 < len s ->
  nd_shape a = [len x; len y; len r; len s] -> nd_shape b = [len x; len y; len s; len r] -> (forall i j k l, nd_cell b [i; j; l; k] = nd_cell a [i; j; k; l]) ->
  z_method m = Ok zf -> same_answer (quadrivariate d e g f zf zf be qx qy qz qu) (quadrivariate d e g' f zf zf be qx qy qu qz).
Proof.
  intros d e x y r s a b g g' f m zf be qx qy qz qu G G' OX OY OR OS LX LY LR LS Sa Sb C M.
  assert (Gf : forall z u a0 g0, new_grid4 x y z u a0 = Ok g0 -> g0 = Grid4 x y z u a0).
  { intros z u a0 g0 G0. unfold new_grid4 in G0. destruct (new_grid3_dim 4 x y z a0); cbn [obind] in G0; try discriminate. destruct (check_shape a0 3 _); cbn [obind] in G0; try discriminate. destruct (a_is_circle u); [discriminate|]. injection G0 as <-. reflexivity. }
  destruct (find_indexes_total x qx OX LX) as [rx FX]. destruct (find_indexes_total y qy OY LY) as [ry FY]. destruct (find_indexes_total r qz OR LR) as [rz FZ]. destruct (find_indexes_total s qu OS LS) as [ru FU].
  assert (FZ' : z_find_indexes (ZReal r) qz = Ok rz) by exact FZ. assert (FU' : z_find_indexes (ZReal s) qu = Ok ru) by exact FU.
  destruct rx as [[i0 i1]|], ry as [[j0 j1]|], rz as [[k0 k1]|], ru as [[l0 l1]|].
  1: { destruct (find_indexes_range x qx i0 i1 OX LX FX) as [I0 I1]. destruct (find_indexes_range y qy j0 j1 OY LY FY) as [J0 J1]. destruct (find_indexes_range r qz k0 k1 OR LR FZ) as [K0 K1]. destruct (find_indexes_range s qu l0 l1 OS LS FU) as [L0 L1].
    rewrite (quad_found d e x y (ZReal r) s a g f zf zf be qx qy qz qu i0 i1 j0 j1 k0 k1 l0 l1 G OX OY OS OR Sa FX FY FZ' FU I0 I1 J0 J1 K0 K1 L0 L1).
    rewrite (quad_found d e x y (ZReal s) r b g' f zf zf be qx qy qu qz i0 i1 j0 j1 l0 l1 k0 k1 G' OX OY OR OS Sb FX FY FU' FZ I0 I1 J0 J1 L0 L1 K0 K1).
    rewrite !C. cbn [z_val]. unfold z_method in M. destruct (String.eqb m "linear").
    - injection M as <-. apply linear_exchange.
      + exact (distinct_bounds r qz k0 k1 OR LR FZ).
      + exact (distinct_bounds s qu l0 l1 OS LS FU).
    - destruct (String.eqb m "nearest"); [|discriminate]. injection M as <-. rewrite nearest_exchange. unfold same_answer. destruct (nearest_z _ _ _ _ _); [reflexivity|exact I]. }
  all: rewrite (Gf _ _ _ _ G), (Gf _ _ _ _ G'); unfold quadrivariate; cbn [g4_x g4_y g4_z g4_u g4_array]; rewrite FX; cbn [obind]; rewrite FY; cbn [obind]; rewrite FZ', FU'; cbn [obind]; rewrite FZ, FU; cbn [obind]; destruct be; exact I || reflexivity.
Qed.

Lemma finish_makes : forall dim (inc : bool) axes a names time, (length axes <= length (nd_shape a))%nat ->
  (forall b, nd_shape b = nd_shape a -> exists c, core_new dim (map (if inc then up else fun z => z) axes) b = Ok c) -> exists x, finish dim inc axes a names time = Ok x.
Proof.
  intros dim inc axes a names time L H. unfold finish, py_grid. destruct inc; cbn [flag].
  - change (String.eqb "inplace" "inplace") with true. cbv iota.
    destruct (increase_seq axes [] [] a) as (a' & E & S & C); [cbn [length]; lia|]. cbn [length app rev repeat] in *. rewrite E. cbn [obind].
    destruct (H a' S) as [c V]. unfold view. cbn [pg_axes pg_dim pg_array]. pose proof (deref_seq [] (map up axes)) as D. cbn [length app] in D. rewrite map_length in D. rewrite D. cbn [obind]. rewrite V. cbn [obind]. eauto.
  - cbn [obind]. destruct (H a eq_refl) as [c V]. rewrite map_id in V. unfold view. cbn [pg_axes pg_dim pg_array]. pose proof (deref_seq [] axes) as D. cbn [length app] in D. rewrite D. cbn [obind]. rewrite V. cbn [obind]. eauto.
Qed.
Lemma transpose_exchange : forall da x y z u a, da_ok da -> transpose da [x; y; z; u] = Ok a ->
  exists b, transpose da [x; y; u; z] = Ok b /\ (exists m n p q, nd_shape a = [m; n; p; q] /\ nd_shape b = [m; n; q; p]) /\ forall i j k l, nd_cell b [i; j; l; k] = nd_cell a [i; j; k; l].
Proof.
  intros da x y z u a OK T. destruct (transpose_spec da _ a OK T) as (P & ND & L & Ce & Sh).
  assert (T' : exists b, transpose da [x; y; u; z] = Ok b).
  { assert (ND' : NoDup [x; y; u; z]).
    { apply (Permutation_NoDup (l := [x; y; z; u])); [|exact ND]. do 2 apply perm_skip. apply perm_swap. }
    unfold transpose in *. cbn [length distinct mem existsb forallb] in *. destruct (Nat.eqb 4 (length (da_dims da))); [|discriminate]. cbn [andb] in *.
    inversion ND' as [|? ? N1 ND1]; subst. inversion ND1 as [|? ? N2 ND2]; subst. inversion ND2 as [|? ? N3 ND3]; subst. cbn [In] in *.
    destruct (String.eqb_spec x y), (String.eqb_spec x u), (String.eqb_spec x z), (String.eqb_spec y u), (String.eqb_spec y z), (String.eqb_spec u z); try (exfalso; intuition congruence). cbn [orb andb negb].
    destruct (negb _ && _)%bool; [|discriminate]. destruct (mem x (da_dims da)), (mem y (da_dims da)), (mem z (da_dims da)), (mem u (da_dims da)); try discriminate. cbn [andb]. eauto. }
  destruct T' as [b T']. exists b. split; [exact T'|]. destruct (transpose_spec da _ b OK T') as (P' & ND' & L' & Ce' & Sh'). split.
  - unfold transpose in T, T'. destruct (_ && _)%bool; [|discriminate]. injection T as <-. destruct (_ && _)%bool; [|discriminate]. injection T' as <-. cbn [nd_shape map]. eauto 10.
  - intros i j k l. destruct (labelling [x; y; z; u] [i; j; k; l] ND eq_refl) as [lab E]. rewrite <- E, Ce. rewrite <- (Ce' lab). f_equal. cbn [map] in *. congruence.
Qed.
Lemma swap_args : forall cast d x y z u, coords cast d [x; y; u; z] None = match coords cast d [x; y; z; u] None with Ok [px; py; pz; pu] => Ok [px; py; pu; pz] | r => r end.
Proof.
  intros cast d x y z u. unfold coords. cbn [length]. destruct (negb _); [reflexivity|].
  assert (E : existsb (fun p : string * Q => negb (mem (fst p) [x; y; u; z])) d = existsb (fun p : string * Q => negb (mem (fst p) [x; y; z; u])) d).
  { induction d as [|p d IH]; cbn [existsb]; [reflexivity|]. rewrite IH. f_equal. f_equal. cbn [mem existsb]. destruct (String.eqb (fst p) x), (String.eqb (fst p) y), (String.eqb (fst p) z), (String.eqb (fst p) u); reflexivity. }
  rewrite E. clear E. destruct (existsb _ d); [reflexivity|]. cbn [collect]. destruct (lookup x d), (lookup y d), (lookup z d), (lookup u d); cbn [obind]; reflexivity.
Qed.
Lemma four_args : forall cast d x y z u l, coords cast d [x; y; z; u] None = Ok l -> exists px py pz pu, l = [px; py; pz; pu].
Proof.
  intros cast d x y z u l H. unfold coords in H. destruct (negb _); [discriminate|]. destruct (existsb _ d); [discriminate|]. cbn [collect] in H.
  destruct (lookup x d), (lookup y d), (lookup z d), (lookup u d); cbn [obind] in H; try discriminate. assert (l = [q; q0; q1; q2]) by congruence. eauto.
Qed.
Definition upr (r : axis) : axis := if is_ascending r then r else flip r.
Lemma up_real : forall r, up (ZReal r) = ZReal (upr r).
Proof. intro r. unfold up, upr. cbn [z_is_ascending z_py_flip py_flip obind]. destruct (is_ascending r); reflexivity. Qed.
Lemma upr_reachable : forall r, reachable r -> reachable (upr r).
Proof. intros r R. unfold upr. destruct (is_ascending r); [exact R|apply reach_flip; exact R]. Qed.
Lemma same_answer_left : forall r r', same_answer r r' -> same_answer r r.
Proof. intros [[v|]|w|w] [[v'|]|w'|w'] H; cbn [same_answer] in *; try contradiction; try exact I; reflexivity. Qed.
Lemma finish_exchange : forall da (inc : bool) nx ny n1 n2 ax ay r s a x, da_ok da -> reachable ax -> reachable ay -> reachable r -> reachable s ->
  transpose da [nx; ny; n1; n2] = Ok a -> finish 4 inc [ZReal ax; ZReal ay; ZReal r; ZReal s] a [nx; ny; n1; n2] None = Ok x ->
  (forall c, view (xg_heap x) (xg_grid x) = Ok c -> Forall (fun z => 1 < z_size z) (fst (parts c))) ->
  exists b x', transpose da [nx; ny; n2; n1] = Ok b /\ finish 4 inc [ZReal ax; ZReal ay; ZReal s; ZReal r] b [nx; ny; n2; n1] None = Ok x' /\
    forall d e cast q f m be, (m = "linear" \/ m = "nearest")%string -> same_answer (call d e cast x q f m m be) (call d e cast x' q f m m be).
Proof.
  intros da inc nx ny n1 n2 ax ay r s a x OK RX RY RR RS T H Wd.
  destruct (transpose_exchange da nx ny n1 n2 a OK T) as (b & T' & (m & n & p & q & Sa & Sb) & Cb). exists b.
  set (w := fun r => if inc then upr r else r). assert (Rw : forall r, reachable r -> reachable (w r)) by (intros t Ht; unfold w; destruct inc; [apply upr_reachable|]; exact Ht).
  assert (Um : forall l, map (if inc then up else fun z => z) (map ZReal l) = map ZReal (map w l)).
  { intro l. rewrite !map_map. apply map_ext. intro t. unfold w. destruct inc; [apply up_real|reflexivity]. }
  destruct (finish_exact 4 inc [ZReal ax; ZReal ay; ZReal r; ZReal s] a [nx; ny; n1; n2] None x ltac:(rewrite Sa; cbn [length]; lia) H) as (a' & c & V & Dn & Dt & Vw & Sa' & Ca').
  assert (V1 : core_new 4 (map ZReal (map w [ax; ay; r; s])) a' = Ok c) by (rewrite <- Um; exact V). clear V. destruct (core_new_parts _ _ _ _ V1) as [Pc Fi]. cbn [map] in *.
  specialize (Wd c Vw). rewrite Pc in Wd. cbn [fst] in Wd. inversion Wd as [|? ? LX W1]; subst. inversion W1 as [|? ? LY W2]; subst. inversion W2 as [|? ? LR W3]; subst. inversion W3 as [|? ? LS _]; subst. cbn [z_size] in *. clear Wd W1 W2 W3.
  unfold fits in Fi. cbn [map z_size] in Fi. rewrite Sa', Sa in Fi. assert (m = len (w ax) /\ n = len (w ay) /\ p = len (w r) /\ q = len (w s)) as (Em & En & Ep & Eq) by (unfold len; split; [|split; [|split]]; congruence).
  assert (Mk : forall b', nd_shape b' = nd_shape b -> exists g', new_grid4 (w ax) (w ay) (ZReal (w s)) (w r) b' = Ok g').
  { cbn [core_new] in V1. intros b' Sb'. destruct (new_grid4 (w ax) (w ay) (ZReal (w r)) (w s) a') as [g| |] eqn:N4; cbn [obind] in V1; try discriminate. clear V1.
    unfold new_grid4, new_grid3_dim, new_grid2_dim, check_ndim, check_shape in *. rewrite Sb', Sb. rewrite Sa', Sa in N4. cbn [length nth_error Nat.eqb obind z_size z_is_circle] in *.
    rewrite Em, En, Ep, Eq in *. unfold len in *. rewrite !Z.eqb_refl in *. cbn [obind] in *.
    destruct (a_is_circle (w ay)); cbn [obind] in *; [discriminate|]. destruct (a_is_circle (w r)); cbn [obind] in *; [discriminate|]. destruct (a_is_circle (w s)); cbn [obind] in *; [discriminate|]. eauto. }
  destruct (finish_makes 4 inc [ZReal ax; ZReal ay; ZReal s; ZReal r] b [nx; ny; n2; n1] None) as [x' H']; [rewrite Sb; cbn [length]; lia| |].
  { intros b' Sb'. change [ZReal ax; ZReal ay; ZReal s; ZReal r] with (map ZReal [ax; ay; s; r]). rewrite Um. cbn [map core_new]. destruct (Mk b' Sb') as [g' ->]. cbn [obind]. eauto. }
  exists x'. split; [exact T'|]. split; [exact H'|].
  destruct (finish_exact 4 inc [ZReal ax; ZReal ay; ZReal s; ZReal r] b [nx; ny; n2; n1] None x' ltac:(rewrite Sb; cbn [length]; lia) H') as (b' & c' & V' & Dn' & Dt' & Vw' & Sb' & Cb').
  assert (V2 : core_new 4 (map ZReal (map w [ax; ay; s; r])) b' = Ok c') by (rewrite <- Um; exact V'). clear V'. cbn [map core_new] in V1, V2.
  destruct (new_grid4 (w ax) (w ay) (ZReal (w r)) (w s) a') as [g| |] eqn:N4; cbn [obind] in V1; try discriminate. injection V1 as <-.
  destruct (new_grid4 (w ax) (w ay) (ZReal (w s)) (w r) b') as [g'| |] eqn:N4'; cbn [obind] in V2; try discriminate. injection V2 as <-.
  intros d e cast qs f me be Hm. unfold call. rewrite Dn, Dn', Dt, Dt', Vw, Vw'. rewrite (swap_args cast qs nx ny n1 n2).
  destruct (coords cast qs [nx; ny; n1; n2] None) as [l| |] eqn:Co; cbn [obind]; [|reflexivity|].
  2: { exfalso. unfold coords in Co. destruct (negb _); [discriminate|]. destruct (existsb _ qs); [discriminate|]. cbn [collect] in Co. destruct (lookup nx qs), (lookup ny qs), (lookup n1 qs), (lookup n2 qs); discriminate. }
  destruct (four_args _ _ _ _ _ _ _ Co) as (px & py & pz & pu & ->).
  assert (Zm : exists zf, z_method me = Ok zf) by (destruct Hm as [-> | ->]; eexists; reflexivity). destruct Zm as [zf Zm]. rewrite Zm. cbn [obind].
  apply (quad_exchange d e (w ax) (w ay) (w r) (w s) a' b' g g' f me zf be px py pz pu N4 N4'); try (apply reachable_ok, Rw; assumption); try assumption.
  - rewrite Sa', Sa. congruence.
  - rewrite Sb', Sb. congruence.
  - intros i j k l. rewrite Ca', Cb', Sa, Sb. cbn [mirrors map]. rewrite Cb. reflexivity.
Qed.
(** With the same method along both dimensions, the value does not depend on the order. *)
Theorem C107_methods : forall order order' da inc geodetic x, da_ok da -> (forall l, Permutation (order l) l) -> (forall l, Permutation (order' l) l) ->
  xgrid4 order da inc geodetic = Ok x -> xg_time x = None ->
  (forall c, view (xg_heap x) (xg_grid x) = Ok c -> Forall (fun z => 1 < z_size z) (fst (parts c))) ->
  exists x', xgrid4 order' da inc geodetic = Ok x' /\
    forall d e cast q f m be, (m = "linear" \/ m = "nearest")%string -> same_answer (call d e cast x q f m m be) (call d e cast x' q f m m be).
Proof.
  intros order order' da inc geodetic x OK Or Or' H Ht Wd. unfold xgrid4 in *. step H. cbn [obind]. destruct a as [|nx [|ny [|]]]; try discriminate.
  destruct (order (others da nx ny)) as [|n1 [|n2 [|]]] eqn:EO; try discriminate. step H. step H. step H. step H.
  assert (F : forall dim inc axes a names time y, finish dim inc axes a names time = Ok y -> xg_time y = time).
  { clear. intros dim inc axes a names time y F. unfold finish in F. destruct (py_grid _ _ _ _ _) as [h [g| |]]; cbn [obind] in F; try discriminate. injection F as <-. reflexivity. }
  destruct (is_time a1) eqn:T2.
  { exfalso. destruct a0 as [|]; [discriminate|]. destruct (make_temporal a1) as [t| |] eqn:M; cbn [obind] in E3; try discriminate. injection E3 as <-.
    cbv beta iota zeta in H. step H. step H. step H. step H. cbn [obind] in H. step H. step H. rewrite (F _ _ _ _ _ _ _ H) in Ht. discriminate. }
  injection E3 as <-. cbv beta iota zeta in H. step H. step H. step H. step H. step H. step H. step H.
  destruct a0 as [[n t]|]; [rewrite (F _ _ _ _ _ _ _ H) in Ht; discriminate|].
  assert (T1 : is_time a = false).
  { destruct (is_time a); [|reflexivity]. destruct (make_temporal a); cbn [obind] in E1; discriminate. }
  rewrite T1 in *. destruct (make_axis a false) as [r| |] eqn:M; cbn [obind] in E7; try discriminate. injection E7 as <-.
  destruct (axis_dim _ _ _ _ _ E3 E4) as [RX _]. destruct (axis_dim _ _ _ _ _ E5 E6) as [RY _]. destruct (axis_dim _ _ _ _ _ E0 M) as [RR _]. destruct (axis_dim _ _ _ _ _ E2 E8) as [RS _].
  destruct (finish_exchange _ _ _ _ _ _ _ _ _ _ _ _ OK RX RY RR RS E9 H Wd) as (b & x' & T' & H' & Sm).
  destruct (two_others da order order' nx ny n1 n2 b OK Or Or' EO (or_intror T')) as [-> | ->].
  - exists x. split; [|intros d e cast q f m be Hm; apply (same_answer_left _ _ (Sm d e cast q f m be Hm))]. redo.
  - exists x'. split; [|exact Sm]. redo.
Qed.
Print Assumptions C107_methods.
Theorem C107_methods_ex : exists x v, xgrid4 (fun l => l) levels true true = Ok x /\ xg_time x = None /\ (forall c, view (xg_heap x) (xg_grid x) = Ok c -> Forall (fun z => 1 < z_size z) (fst (parts c))) /\
  call gap2 gap2 no_cast x [("lon", 0%Q); ("lat", 0%Q); ("depth", 1 # 4); ("energy", 1 # 4)]%string Bilinear "linear" "linear" true = Ok (Some v) /\ (v == 11 # 4)%Q.
Proof.
  eexists. eexists. split; [vm_compute; reflexivity|]. split; [reflexivity|]. split; [|split; [vm_compute; reflexivity|reflexivity]].
  intros c V. vm_compute in V. injection V as <-. repeat constructor; reflexivity.
Qed.

