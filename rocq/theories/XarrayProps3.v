(** Theorems about the Python grids (C104, continued): the option [increasing_axes] does not change
    what is interpolated. *)
From Verif Require Import Base BaseProofs MathModel AxisModel AxisSpec AxisProofs AxisProofs2 AxisProofs5
  IntAxisModel IntAxisProofs GridModel GridSpec GridProofs GridProps GridProps4 XarrayModel XarraySpec XarrayProofs XarrayProps XarrayProps2.
Open Scope Z_scope.

Lemma parts_eq2 : forall h dim refs arr c ax ay a, view h (PyGrid dim refs arr) = Ok c -> parts c = ([ZReal ax; ZReal ay], a) -> exists g, c = G2 g /\ new_grid2 ax ay a = Ok g.
Proof.
  intros h dim refs arr c ax ay a V P. unfold view in V. cbn [pg_dim pg_axes pg_array] in V.
  destruct (deref h refs) as [axes| |]; cbn [obind] in V; try discriminate.
  unfold core_new in V. destruct dim as [|[|[|[|[|dim]]]]]; try discriminate.
  - destruct axes as [|[x|] [|[y|] [|]]]; try discriminate. destruct (new_grid2 x y arr) as [g| |] eqn:G; cbn [obind] in V; try discriminate. injection V as <-.
    exists g. split; [reflexivity|]. cbn [parts] in P. assert (E : core_new 2 [ZReal x; ZReal y] arr = Ok (G2 g)) by (cbn [core_new]; rewrite G; reflexivity).
    destruct (core_new_parts _ _ _ _ E) as [Q _]. cbn [parts] in Q. rewrite Q in P. injection P as -> -> ->. exact G.
  - destruct axes as [|[x|] [|[y|] [|z [|]]]]; try discriminate. destruct (new_grid3 x y z arr) as [g| |]; cbn [obind] in V; try discriminate. injection V as <-. discriminate.
  - destruct axes as [|[x|] [|[y|] [|z [|[u|] [|]]]]]; try discriminate. destruct (new_grid4 x y z u arr) as [g| |]; cbn [obind] in V; try discriminate. injection V as <-. discriminate.
Qed.
Lemma deref_reachable : forall h refs axes, Forall z_reachable h -> deref h refs = Ok axes -> Forall z_reachable axes.
Proof. intros h refs axes F D. rewrite Forall_forall in *. intros z Hz. apply F. eapply deref_in; eassumption. Qed.
Lemma increase_closed : forall (P : zaxis -> Prop) (inplace : bool), (forall z z', P z -> z_py_flip inplace z = Ok z' -> P z') ->
  forall todo h idx done a h' refs' a', (forall r z, In r (todo ++ done) -> nth_error h r = Some z -> P z) ->
  increase inplace h idx todo done a = (h', Ok (refs', a')) -> forall r z, In r refs' -> nth_error h' r = Some z -> P z.
Proof.
  intros P inplace C. induction todo as [|t todo IH]; intros h idx done a h' refs' a' H E r z Hr Er; cbn [increase] in E.
  - assert (E1 : h' = h) by (injection E; auto). assert (E2 : refs' = rev done) by (injection E; auto). subst. apply (H r z); [|exact Er]. cbn [app]. apply in_rev. exact Hr.
  - destruct (nth_error h t) as [w|] eqn:Et; [|discriminate]. destruct (z_is_ascending w).
    + eapply (IH h (S idx) (t :: done)); try eassumption. intros s y Hs. apply H. cbn [app]. apply in_app_iff in Hs as [Hs|[<-|Hs]]; [right|left|right]; auto using in_or_app.
    + destruct (z_py_flip inplace w) as [w'| |] eqn:Ew; [|discriminate|discriminate]. assert (Pw : P w') by (apply (C w w'); [apply (H t w); [left; reflexivity|exact Et]|exact Ew]).
      destruct (numpy_flip a idx) as [b| |]; [|discriminate|discriminate]. eapply IH; [|exact E|exact Hr|exact Er].
      intros s y Hs Es. destruct inplace.
      * destruct (Nat.eq_dec t s) as [<-|N].
        -- rewrite put_same in Es by (apply nth_error_lt in Et; exact Et). injection Es as <-. exact Pw.
        -- rewrite put_other in Es by exact N. apply (H s y); [|exact Es]. cbn [app]. apply in_app_iff in Hs as [Hs|[<-|Hs]]; [right; apply in_or_app; auto|contradiction|right; apply in_or_app; auto].
      * destruct (Nat.lt_ge_cases s (length h)) as [L|L].
        -- rewrite nth_error_app1 in Es by exact L. apply in_app_iff in Hs as [Hs|[Hs|Hs]]; [|lia|]; (apply (H s y); [right; apply in_or_app; auto|exact Es]).
        -- rewrite nth_error_app2 in Es by exact L. destruct (s - length h)%nat as [|k]; cbn [nth_error] in Es; [injection Es as <-; exact Pw|destruct k; discriminate].
Qed.
(** An axis of more than one point that is not an angle. *)
Definition plain (z : zaxis) : Prop :=
  match z with ZReal a => reachable a /\ 1 < len a /\ is_angle a = false | ZTime _ => True end.
Lemma plain_flip : forall inplace z z', plain z -> z_py_flip inplace z = Ok z' -> plain z'.
Proof.
  intros inplace [a|c] z' H E; cbn [z_py_flip plain] in *.
  - destruct H as (R & L & A). pose proof (reachable_ok _ R) as OK.
    assert (D : forall b, reachable b -> 1 < len b -> is_angle b = false -> plain (ZReal (flip b))).
    { intros b Rb Lb Ab. split; [apply reach_flip; exact Rb|]. split; [|exact Ab]. unfold len, flip in *. cbn [a_cont]. pose proof (flip_turned (ZReal b) (reachable_ok _ Rb)) as (y & Y & (_ & S & _) & _). cbn [z_py_flip py_flip obind] in Y. injection Y as <-. cbn [z_size] in S. unfold flip in S. cbn [a_cont] in S. lia. }
    destruct inplace; cbn [py_flip obind] in E.
    + injection E as <-. apply D; assumption.
    + destruct (setstate (getstate a)) as [b| |] eqn:Es; cbn [obind] in E; try discriminate. injection E as <-.
      apply D; [eapply reach_pickle; eassumption| |].
      * unfold len in *. destruct OK as [W _]. unfold getstate in Es. destruct (a_cont a) as [|asc pts|asc n s st inv]; cbn [setstate c_size] in *.
        -- injection Es as <-. cbn [a_cont c_size]. lia.
        -- unfold mk_irregular in Es. destruct (zlen pts =? 0); cbn [obind] in Es; try discriminate. injection Es as <-. cbn [axis_of_container a_cont c_size]. exact L.
        -- revert Es. unfold mk_regular. cbv zeta. repeat match goal with |- context [if ?b then _ else _] => destruct b end; cbn [obind]; intro Es; try discriminate; injection Es as <-; cbn [axis_of_container a_cont c_size]; exact L.
      * assert (Ci : a_is_circle a = false).
        { destruct OK as (_ & _ & C1). unfold is_angle in A. destruct (a_is_circle a); [|reflexivity]. rewrite (C1 eq_refl) in A. discriminate. }
        unfold getstate in Es. rewrite Ci in Es. destruct (a_cont a) as [|asc pts|asc n s st inv]; cbn [setstate] in Es.
        -- injection Es as <-. reflexivity.
        -- destruct (mk_irregular pts); cbn [obind] in Es; try discriminate. injection Es as <-. reflexivity.
        -- destruct (mk_regular _ _ n); cbn [obind] in Es; try discriminate. injection Es as <-. reflexivity.
  - destruct inplace; [injection E as <-; exact I|]. destruct (i_pickle c); cbn [obind] in E; try discriminate. injection E as <-. exact I.
Qed.

(** The word given to [increasing_axes] does not change what the bilinear interpolator answers (an
    array without missing value, axes of more than one point that are not angles; 'inplace' needs
    two different objects, 'copy' axes that can be pickled). *)
Theorem C104_increasing : forall d c d' c' m h rx ry a p0 g0 h' p g be x y,
  Forall z_reachable h -> m = "inplace"%string /\ rx <> ry \/ m = "copy"%string /\ copyable (ZReal (g2_x g0)) /\ copyable (ZReal (g2_y g0)) ->
  py_grid 2 None h [rx; ry] a = (h, Ok p0) -> view h p0 = Ok (G2 g0) ->
  py_grid 2 (Some m) h [rx; ry] a = (h', Ok p) -> view h' p = Ok (G2 g) ->
  1 < len (g2_x g0) -> 1 < len (g2_y g0) -> is_angle (g2_x g0) = false -> is_angle (g2_y g0) = false -> full (g2_x g0) (g2_y g0) (g2_array g0) ->
  same_answer (bivariate d c g0 Bilinear be x y) (bivariate d' c' g Bilinear be x y).
Proof.
  intros d c d' c' m h rx ry a p0 g0 h' p g be x y R M B0 V0 B V LX LY AX AY F.
  assert (Ex : exists inplace : bool, m = (if inplace then "inplace" else "copy")%string /\ (inplace = true -> NoDup [rx; ry]) /\ (inplace = false -> Forall copyable (fst (parts (G2 g0))))).
  { destruct M as [(-> & N)|(-> & C1 & C2)]; [exists true|exists false]; (split; [reflexivity|]); (split; [intro X|intro X]); try discriminate.
    - constructor; [cbn; intuition|]. constructor; [intros []|constructor].
    - cbn [parts fst]. auto. }
  destruct Ex as (inplace & Em & N & C).
  destruct (increased inplace 2 h [rx; ry] a p0 (G2 g0) R N B0 V0 C) as (h1 & p1 & c1 & B1 & V1 & _ & SF & _ & _).
  rewrite <- Em in B1. rewrite B in B1. assert (h' = h1) by (injection B1; auto). assert (p = p1) by (injection B1; auto). subst h1 p1. rewrite V in V1. injection V1 as <-.
  clear B1. cbn [parts fst snd] in SF.
  (* the two grids *)
  assert (D0 : deref h [rx; ry] = Ok [ZReal (g2_x g0); ZReal (g2_y g0)] /\ new_grid2 (g2_x g0) (g2_y g0) (g2_array g0) = Ok g0).
  { unfold py_grid in B0. cbn [obind] in B0. assert (X : (olet _ := view h (PyGrid 2 [rx; ry] a) in Ok (PyGrid 2 [rx; ry] a)) = Ok p0) by (injection B0; auto).
    destruct (view h (PyGrid 2 [rx; ry] a)) as [v| |] eqn:E; cbn [obind] in X; try discriminate. injection X as <-. rewrite V0 in E. injection E as <-.
    destruct (parts_eq2 _ _ _ _ _ (g2_x g0) (g2_y g0) (g2_array g0) V0 eq_refl) as (g1 & X & G). injection X as <-. split; [|exact G].
    unfold view in V0. cbn [pg_dim pg_axes pg_array] in V0. destruct (deref h [rx; ry]) as [axes| |] eqn:D; cbn [obind] in V0; try discriminate.
    destruct (core_new_parts _ _ _ _ V0) as [P _]. cbn [parts] in P. injection P as <- _. reflexivity. }
  destruct D0 as [D0 G0].
  destruct p as [dim refs arr]. destruct (parts_eq2 _ _ _ _ _ (g2_x g) (g2_y g) (g2_array g) V eq_refl) as (g1 & X & G). injection X as <-.
  assert (D : deref h' refs = Ok [ZReal (g2_x g); ZReal (g2_y g)]).
  { unfold view in V. cbn [pg_dim pg_axes pg_array] in V. destruct (deref h' refs) as [axes| |] eqn:D; cbn [obind] in V; try discriminate.
    destruct (core_new_parts _ _ _ _ V) as [P _]. cbn [parts] in P. injection P as <- _. reflexivity. }
  (* the axes of the second one *)
  pose proof (deref_reachable h _ _ R D0) as RR. inversion RR as [|? ? RX RR']; subst. inversion RR' as [|? ? RY _]; subst. clear RR RR'. cbn [z_reachable] in RX, RY.
  assert (PL : forall r z, In r refs -> nth_error h' r = Some z -> plain z).
  { unfold py_grid in B. assert (I : increase inplace h 0 [rx; ry] [] a = (h', Ok (refs, arr))).
    { destruct inplace; cbn [String.eqb Ascii.eqb Bool.eqb] in B; (destruct (increase _ h 0 [rx; ry] [] a) as [h2 o] eqn:E);
      (assert (h2 = h') by (injection B; auto)); subst h2; (assert (X : (olet (refs', a') := o in olet _ := view h' (PyGrid 2 refs' a') in Ok (PyGrid 2 refs' a')) = Ok (PyGrid dim refs arr)) by (injection B; auto));
      (destruct o as [[refs' a']| |]; cbn [obind] in X; try discriminate); (destruct (view h' (PyGrid 2 refs' a')); cbn [obind] in X; try discriminate); injection X as <- <- <-; reflexivity. }
    eapply (increase_closed plain inplace (plain_flip inplace)); [|exact I]. intros r z Hr Er. cbn [app] in Hr.
    assert (Dm := D0). apply deref_map in Dm. cbn [map] in Dm. assert (X1 : nth_error h rx = Some (ZReal (g2_x g0))) by (injection Dm; auto). assert (X2 : nth_error h ry = Some (ZReal (g2_y g0))) by (injection Dm; auto).
    destruct Hr as [<-|[<-|[]]]; [rewrite X1 in Er|rewrite X2 in Er]; injection Er as <-; cbn [plain]; auto. }
  assert (Dm := D). apply deref_map in Dm. destruct refs as [|r1 [|r2 [|]]]; try discriminate. cbn [map] in Dm.
  assert (X1 : nth_error h' r1 = Some (ZReal (g2_x g))) by (injection Dm; auto). assert (X2 : nth_error h' r2 = Some (ZReal (g2_y g))) by (injection Dm; auto).
  destruct (PL r1 _ (or_introl eq_refl) X1) as (RX' & LX' & AX'). destruct (PL r2 _ (or_intror (or_introl eq_refl)) X2) as (RY' & LY' & AY').
  eapply C104_bilinear; eassumption.
Qed.
Print Assumptions C104_increasing.

(** The hypotheses are met: a grid whose first axis is descending. *)
Theorem C104_ex : exists h rx ry a p0 g0 h' p g, Forall z_reachable h /\ rx <> ry /\
  py_grid 2 None h [rx; ry] a = (h, Ok p0) /\ view h p0 = Ok (G2 g0) /\
  py_grid 2 (Some "inplace"%string) h [rx; ry] a = (h', Ok p) /\ view h' p = Ok (G2 g) /\
  1 < len (g2_x g0) /\ 1 < len (g2_y g0) /\ is_angle (g2_x g0) = false /\ is_angle (g2_y g0) = false /\ full (g2_x g0) (g2_y g0) (g2_array g0) /\
  ~ (axis_at (g2_x g0) 0 = axis_at (g2_x g) 0).
Proof.
  exists [ZReal xdown; ZReal xup], 0%nat, 1%nat, slope. do 5 eexists.
  split; [repeat constructor; [exact xdown_reachable|exact xup_reachable]|]. split; [discriminate|].
  do 4 (split; [reflexivity|]). do 4 (split; [reflexivity|]). split.
  - intros i j _ _. eexists. reflexivity.
  - discriminate.
Qed.

(** ** Other interpolators *)
(** Away from the lines of the grid the two ends of the cell come in increasing order. *)
Lemma cell_low : forall a x i0 i1, axis_ok a -> 1 < len a -> is_angle a = false -> find_indexes a x = Ok (Some (i0, i1)) ->
  (forall i v, at_index a i v -> ~ (v == x)%Q) -> (fval (a_cont a) i0 < fval (a_cont a) i1)%Q.
Proof.
  intros a x i0 i1 OK L A E N. pose proof (find_indexes_range a x i0 i1 OK L E) as [R0 R1]. pose proof OK as (W & _ & Ci).
  assert (Hc : a_circle a = None) by (unfold is_angle in A; destruct (a_circle a); [discriminate|reflexivity]).
  assert (Nc : a_is_circle a = false) by (destruct (a_is_circle a); [rewrite Ci in Hc by reflexivity; discriminate|reflexivity]).
  unfold find_indexes in E. rewrite Nc in E. assert (Nx : normalize_coordinate a x = x).
  { unfold normalize_coordinate, normalize_coordinate_min. rewrite Hc. destruct (c_min (a_cont a)); reflexivity. }
  rewrite Nx in E. cbv zeta in E.
  destruct (find_index a x false) as [k| |] eqn:F; cbn [obind] in E; try discriminate. destruct (k =? -1); [discriminate|].
  destruct (c_value (a_cont a) k) as [v|] eqn:Ev; [|discriminate].
  destruct (Qeq_bool (x - v) 0) eqn:Q0.
  { exfalso. apply Qeq_bool_iff in Q0. assert (Rk : 0 <= k < len a) by (destruct (k =? _) in E; (destruct (_ && _)%bool in E; [|discriminate]); injection E as <- <-; lia).
    apply (N k v); [|lra]. apply at_index_iff; [exact W|]. split; [exact Rk|]. unfold fval. rewrite Ev. reflexivity. }
  assert (M : forall p, 0 <= p -> p + 1 < len a -> if c_asc (a_cont a) then (fval (a_cont a) p < fval (a_cont a) (p + 1))%Q else (fval (a_cont a) (p + 1) < fval (a_cont a) p)%Q) by (intros; apply (wf_mono _ W); unfold len in *; lia).
  destruct (Qltb (x - v) 0).
  - destruct (c_asc (a_cont a)); (destruct (_ && _)%bool in E; [|discriminate]); injection E as <- <-.
    + specialize (M (k - 1) ltac:(lia) ltac:(lia)). replace (k - 1 + 1) with k in M by lia. exact M.
    + exact (M k ltac:(lia) ltac:(lia)).
  - destruct (c_asc (a_cont a)); (destruct (_ && _)%bool in E; [|discriminate]); injection E as <- <-.
    + exact (M k ltac:(lia) ltac:(lia)).
    + specialize (M (k - 1) ltac:(lia) ltac:(lia)). replace (k - 1 + 1) with k in M by lia. exact M.
Qed.
(** The cells found on two axes with the same coordinates: the same one, or two cells that share the
    line the point is on. *)
Definition on_line (a : axis) (x : Q) : Prop := exists i v, at_index a i v /\ (v == x)%Q.
Lemma on_line_dec : forall a x i0 i1, axis_ok a -> 1 < len a -> is_angle a = false -> find_indexes a x = Ok (Some (i0, i1)) ->
  (on_line a x /\ ((x == fval (a_cont a) i0)%Q \/ (x == fval (a_cont a) i1)%Q)) \/ ~ on_line a x.
Proof.
  intros a x i0 i1 OK L A E. pose proof (find_indexes_range a x i0 i1 OK L E) as [R0 R1].
  assert (Hc : a_circle a = None) by (unfold is_angle in A; destruct (a_circle a); [discriminate|reflexivity]).
  destruct (find_indexes_plain a x OK L Hc) as (r & Er & P). rewrite E in Er. injection Er as <-. destruct P as [B _].
  destruct (cell_brackets a x i0 i1 (proj1 OK) B) as (_ & _ & _ & C).
  destruct (Qeq_dec x (fval (a_cont a) i0)) as [E0|E0]; [left; split; [exists i0, (fval (a_cont a) i0); split; [apply C|symmetry; exact E0]|left; exact E0]|].
  destruct (Qeq_dec x (fval (a_cont a) i1)) as [E1|E1]; [left; split; [exists i1, (fval (a_cont a) i1); split; [apply C|symmetry; exact E1]|right; exact E1]|].
  right. intros (i & v & Hi & Ei). destruct (cell_node a x i v i0 i1 (proj1 OK) Hi ltac:(symmetry; exact Ei) C) as [-> | ->]; apply at_index_iff in Hi as [_ ->]; try apply OK; [apply E0|apply E1]; symmetry; exact Ei.
Qed.
Lemma same_cells : forall a a' x i0 i1 j0 j1, axis_ok a -> axis_ok a' -> 1 < len a -> 1 < len a' -> is_angle a = false -> is_angle a' = false ->
  same_values (ZReal a) (ZReal a') -> find_indexes a x = Ok (Some (i0, i1)) -> find_indexes a' x = Ok (Some (j0, j1)) ->
  ((fval (a_cont a) i0 == fval (a_cont a') j0)%Q /\ (fval (a_cont a) i1 == fval (a_cont a') j1)%Q) \/
  (((x == fval (a_cont a) i0)%Q \/ (x == fval (a_cont a) i1)%Q) /\ ((x == fval (a_cont a') j0)%Q \/ (x == fval (a_cont a') j1)%Q)).
Proof.
  intros a a' x i0 i1 j0 j1 OK OK' L L' A A' [S S'] E E'.
  destruct (on_line_dec a x i0 i1 OK L A E) as [[H H1]|H]; (destruct (on_line_dec a' x j0 j1 OK' L' A' E') as [[H' H1']|H']).
  - right. split; assumption.
  - exfalso. apply H'. destruct H as (i & v & Hi & Ei). destruct (S i v Hi) as (j & w & Hj & Ej). exists j, w. split; [exact Hj|]. rewrite Ej. exact Ei.
  - exfalso. apply H. destruct H' as (i & v & Hi & Ei). destruct (S' i v Hi) as (j & w & Hj & Ej). exists j, w. split; [exact Hj|]. rewrite Ej. exact Ei.
  - left. pose proof (cell_low a x i0 i1 OK L A E) as Lo. specialize (Lo ltac:(intros i v Hi Ei; apply H; exists i, v; auto)).
    pose proof (cell_low a' x j0 j1 OK' L' A' E') as Lo'. specialize (Lo' ltac:(intros i v Hi Ei; apply H'; exists i, v; auto)).
    assert (Hc : a_circle a = None) by (unfold is_angle in A; destruct (a_circle a); [discriminate|reflexivity]).
    assert (Hc' : a_circle a' = None) by (unfold is_angle in A'; destruct (a_circle a'); [discriminate|reflexivity]).
    destruct (find_indexes_plain a x OK L Hc) as (r & Er & P). rewrite E in Er. injection Er as <-. destruct P as [B _].
    destruct (find_indexes_plain a' x OK' L' Hc') as (r & Er & P). rewrite E' in Er. injection Er as <-. destruct P as [B' _].
    destruct (cell_brackets a x i0 i1 (proj1 OK) B) as (_ & _ & _ & C). destruct (cell_brackets a' x j0 j1 (proj1 OK') B') as (_ & _ & _ & C').
    destruct C as (H0 & H1 & Ad & Bt). destruct C' as (G0 & G1 & Ad' & Bt'). unfold between in Bt, Bt'.
    assert (V0 : ~ (fval (a_cont a) i0 == x)%Q) by (intro X; apply H; exists i0, (fval (a_cont a) i0); split; [assumption|exact X]). assert (V1 : ~ (fval (a_cont a) i1 == x)%Q) by (intro X; apply H; exists i1, (fval (a_cont a) i1); split; [assumption|exact X]).
    assert (W0 : ~ (fval (a_cont a') j0 == x)%Q) by (intro X; apply H'; exists j0, (fval (a_cont a') j0); split; [assumption|exact X]). assert (W1 : ~ (fval (a_cont a') j1 == x)%Q) by (intro X; apply H'; exists j1, (fval (a_cont a') j1); split; [assumption|exact X]).
    destruct (S i0 _ H0) as (p & vp & Hp & Ep). destruct (S i1 _ H1) as (q & vq & Hq & Eq). destruct (S' j0 _ G0) as (r & vr & Hr & Er). destruct (S' j1 _ G1) as (s & vs & Hs & Es).
    pose proof (gap (ZReal a') j0 j1 _ _ p vp OK' G0 G1 Ad' Hp Lo') as X1. pose proof (gap (ZReal a') j0 j1 _ _ q vq OK' G0 G1 Ad' Hq Lo') as X2.
    pose proof (gap (ZReal a) i0 i1 _ _ r vr OK H0 H1 Ad Hr Lo) as X3. pose proof (gap (ZReal a) i0 i1 _ _ s vs OK H0 H1 Ad Hs Lo) as X4.
    split; destruct Bt, Bt', X1, X2, X3, X4; lra.
Qed.
(** A distance that depends on the values of the coordinates only. *)
Definition respectful (d : point -> point -> Q) : Prop :=
  forall p q p' q', (px p == px p')%Q -> (py p == py p')%Q -> (px q == px q')%Q -> (py q == py q')%Q -> (d p q == d p' q')%Q.
Definition same_value (v v' : option Q) : Prop :=
  match v, v' with Some v, Some w => (v == w)%Q | None, None => True | _, _ => False end.
Lemma Qltb_cong : forall a b a' b', (a == a')%Q -> (b == b')%Q -> Qltb a b = Qltb a' b'.
Proof. intros a b a' b' E E'. destruct (Qltb a b) eqn:X, (Qltb a' b') eqn:Y; try reflexivity; [apply Qltb_true in X; apply Qltb_false in Y|apply Qltb_false in X; apply Qltb_true in Y]; lra. Qed.
Lemma Qle_bool_cong : forall a b a' b', (a == a')%Q -> (b == b')%Q -> Qle_bool a b = Qle_bool a' b'.
Proof.
  intros a b a' b' E E'. destruct (Qle_bool a b) eqn:X, (Qle_bool a' b') eqn:Y; try reflexivity.
  - apply Qle_bool_iff in X. assert (Z : (a' <= b')%Q) by lra. apply Qle_bool_iff in Z. congruence.
  - apply Qle_bool_iff in Y. assert (Z : (a <= b)%Q) by lra. apply Qle_bool_iff in Z. congruence.
Qed.
Lemma Qeq_bool_cong : forall a b a' b', (a == a')%Q -> (b == b')%Q -> Qeq_bool a b = Qeq_bool a' b'.
Proof.
  intros a b a' b' E E'. destruct (Qeq_bool a b) eqn:X, (Qeq_bool a' b') eqn:Y; try reflexivity.
  - apply Qeq_bool_iff in X. assert (Z : (a' == b')%Q) by lra. apply Qeq_bool_iff in Z. congruence.
  - apply Qeq_bool_iff in Y. assert (Z : (a == b)%Q) by lra. apply Qeq_bool_iff in Z. congruence.
Qed.
Lemma idw_cong : forall d e p p' l l', respectful d -> (px p == px p')%Q -> (py p == py p')%Q ->
  Forall2 (fun c c' => (px (fst c) == px (fst c'))%Q /\ (py (fst c) == py (fst c'))%Q /\ snd c = snd c') l l' ->
  forall w w' u u', (w == w')%Q -> same_value u u' -> same_value (idw_loop d e p l w u) (idw_loop d e p' l' w' u').
Proof.
  intros d e p p' l l' D Ex Ey F. induction F as [|[c q] [c' q'] l l' (A & B & C) F IH]; intros w w' u u' Ew Eu; cbn [idw_loop fst snd] in *.
  - unfold nan2. destruct u, u'; cbn [same_value] in *; auto; try contradiction. rewrite Ew, Eu. reflexivity.
  - subst q'. pose proof (D p c p' c' Ex Ey A B) as Ed. rewrite (Qle_bool_cong _ epsilon _ epsilon Ed (Qeq_refl _)). destruct (Qle_bool (d p' c') epsilon).
    + destruct q; cbn [same_value]; [reflexivity|exact I].
    + apply IH; [rewrite Ew, Ed; reflexivity|]. unfold nan2. destruct u, u'; cbn [same_value] in *; try contradiction; auto. destruct q; cbn [same_value]; auto. rewrite Eu, Ed. reflexivity.
Qed.
Lemma evaluate_cong : forall d c f p p' p0 p1 p0' p1' q00 q01 q10 q11, respectful d -> respectful c ->
  (px p == px p')%Q -> (py p == py p')%Q -> (px p0 == px p0')%Q -> (py p0 == py p0')%Q -> (px p1 == px p1')%Q -> (py p1 == py p1')%Q ->
  same_value (evaluate d c f p p0 p1 q00 q01 q10 q11) (evaluate d c f p' p0' p1' q00 q01 q10 q11).
Proof.
  intros d c f p p' p0 p1 p0' p1' q00 q01 q10 q11 D C X Y X0 Y0 X1 Y1. destruct f as [|e|]; cbn [evaluate].
  - unfold bilinear. cbv zeta. rewrite (Qeq_bool_cong (px p1 - px p0) 0 (px p1' - px p0') 0) by (try reflexivity; rewrite X0, X1; reflexivity).
    rewrite (Qeq_bool_cong (py p1 - py p0) 0 (py p1' - py p0') 0) by (try reflexivity; rewrite Y0, Y1; reflexivity).
    destruct (_ || _)%bool; [exact I|]. destruct q00, q01, q10, q11; cbn [same_value]; auto. rewrite X, Y, X0, X1, Y0, Y1. reflexivity.
  - apply idw_cong; auto; [|reflexivity|reflexivity]. unfold corners. repeat constructor; cbn [fst snd px py]; auto.
  - unfold corners. cbn [nearest_loop].
    assert (C00 : (c p (Point (px p0) (py p0)) == c p' (Point (px p0') (py p0')))%Q) by (apply C; auto). assert (C01 : (c p (Point (px p0) (py p1)) == c p' (Point (px p0') (py p1')))%Q) by (apply C; auto).
    assert (C10 : (c p (Point (px p1) (py p0)) == c p' (Point (px p1') (py p0')))%Q) by (apply C; auto). assert (C11 : (c p (Point (px p1) (py p1)) == c p' (Point (px p1') (py p1')))%Q) by (apply C; auto).
    cbn [fst snd]. rewrite (Qltb_cong _ _ _ _ C01 C00). destruct (Qltb _ (c p' (Point (px p0') (py p0')))); cbn [fst snd].
    + rewrite (Qltb_cong _ _ _ _ C10 C01). destruct (Qltb _ (c p' (Point (px p0') (py p1')))); cbn [fst snd].
      * rewrite (Qltb_cong _ _ _ _ C11 C10). destruct (Qltb _ _); cbn [snd]; [destruct q11|destruct q10]; cbn [same_value]; auto; reflexivity.
      * rewrite (Qltb_cong _ _ _ _ C11 C01). destruct (Qltb _ _); cbn [snd]; [destruct q11|destruct q01]; cbn [same_value]; auto; reflexivity.
    + rewrite (Qltb_cong _ _ _ _ C10 C00). destruct (Qltb _ (c p' (Point (px p0') (py p0')))); cbn [fst snd].
      * rewrite (Qltb_cong _ _ _ _ C11 C10). destruct (Qltb _ _); cbn [snd]; [destruct q11|destruct q10]; cbn [same_value]; auto; reflexivity.
      * rewrite (Qltb_cong _ _ _ _ C11 C00). destruct (Qltb _ _); cbn [snd]; [destruct q11|destruct q00]; cbn [same_value]; auto; reflexivity.
Qed.

(** What is needed to compare two grids of the same field. *)
Lemma two_grids : forall d c d' c' f ax ay a g ax' ay' a' g' be x y,
  new_grid2 ax ay a = Ok g -> new_grid2 ax' ay' a' = Ok g' ->
  reachable ax -> reachable ay -> reachable ax' -> reachable ay' -> 1 < len ax -> 1 < len ay -> 1 < len ax' -> 1 < len ay' ->
  is_angle ax = false -> is_angle ay = false -> is_angle ax' = false -> is_angle ay' = false ->
  same_field [ZReal ax; ZReal ay] a [ZReal ax'; ZReal ay'] a' ->
  (exists r, (forall f, bivariate d c g f be x y = r) /\ (forall f, bivariate d' c' g' f be x y = r) /\ r = (if be then Throw "out of bounds" else Ok None)) \/
  exists i0 i1 j0 j1 k0 k1 l0 l1,
    find_indexes ax x = Ok (Some (i0, i1)) /\ find_indexes ay y = Ok (Some (j0, j1)) /\ find_indexes ax' x = Ok (Some (k0, k1)) /\ find_indexes ay' y = Ok (Some (l0, l1)) /\
    same_values (ZReal ax) (ZReal ax') /\ same_values (ZReal ay) (ZReal ay') /\
    (forall i k j l, (i = i0 \/ i = i1) -> (k = k0 \/ k = k1) -> (j = j0 \/ j = j1) -> (l = l0 \/ l = l1) ->
       (fval (a_cont ax) i == fval (a_cont ax') k)%Q -> (fval (a_cont ay) j == fval (a_cont ay') l)%Q -> nd_cell a [i; j] = nd_cell a' [k; l]) /\
    ~ (fval (a_cont ax) i0 == fval (a_cont ax) i1)%Q /\ ~ (fval (a_cont ay) j0 == fval (a_cont ay) j1)%Q /\
    ~ (fval (a_cont ax') k0 == fval (a_cont ax') k1)%Q /\ ~ (fval (a_cont ay') l0 == fval (a_cont ay') l1)%Q /\
    bivariate d c g f be x y = Ok (evaluate d c f (Point x y)
     (Point (fval (a_cont ax) i0) (fval (a_cont ay) j0)) (Point (fval (a_cont ax) i1) (fval (a_cont ay) j1))
     (nd_cell a [i0; j0]) (nd_cell a [i0; j1]) (nd_cell a [i1; j0]) (nd_cell a [i1; j1])) /\
    bivariate d' c' g' f be x y = Ok (evaluate d' c' f (Point x y)
     (Point (fval (a_cont ax') k0) (fval (a_cont ay') l0)) (Point (fval (a_cont ax') k1) (fval (a_cont ay') l1))
     (nd_cell a' [k0; l0]) (nd_cell a' [k0; l1]) (nd_cell a' [k1; l0]) (nd_cell a' [k1; l1])).
Proof.
  intros d c d' c' f ax ay a g ax' ay' a' g' be x y G G' RX RY RX' RY' LX LY LX' LY' AX AY AX' AY' SF.
  pose proof (reachable_ok _ RX) as OX. pose proof (reachable_ok _ RY) as OY. pose proof (reachable_ok _ RX') as OX'. pose proof (reachable_ok _ RY') as OY'.
  destruct (same_field_values2 (ZReal ax) (ZReal ay) a (ZReal ax') (ZReal ay') a' OX OY OX' OY' SF) as [SX SY].
  destruct (z_inside_dec (ZReal ax) x OX) as [IX|IX]; [destruct (z_inside_dec (ZReal ay) y OY) as [IY|IY]|].
  - right.
    destruct (plain_indexes ax x OX LX AX IX) as (i0 & i1 & FX & BX). destruct (plain_indexes ay y OY LY AY IY) as (j0 & j1 & FY & BY).
    destruct (plain_indexes ax' x OX' LX' AX' (same_values_inside _ _ x SX IX)) as (k0 & k1 & FX' & BX'). destruct (plain_indexes ay' y OY' LY' AY' (same_values_inside _ _ y SY IY)) as (l0 & l1 & FY' & BY').
    exists i0, i1, j0, j1, k0, k1, l0, l1.
    destruct (cell_brackets ax x i0 i1 (proj1 OX) BX) as (P0 & P1 & NP & _). destruct (cell_brackets ay y j0 j1 (proj1 OY) BY) as (Q0 & Q1 & NQ & _).
    destruct (cell_brackets ax' x k0 k1 (proj1 OX') BX') as (P0' & P1' & NP' & _). destruct (cell_brackets ay' y l0 l1 (proj1 OY') BY') as (Q0' & Q1' & NQ' & _).
    do 4 (split; [assumption|]). do 2 (split; [assumption|]). split.
    { intros i k j l Hi Hk Hj Hl Ex Ey. apply (proj2 SF [fval (a_cont ax) i; fval (a_cont ay) j]); cbn [located].
      - split; [exists (fval (a_cont ax) i); split; [apply at_index_iff; [apply OX|split; [destruct Hi; subst; assumption|reflexivity]]|reflexivity]|].
        split; [exists (fval (a_cont ay) j); split; [apply at_index_iff; [apply OY|split; [destruct Hj; subst; assumption|reflexivity]]|reflexivity]|exact I].
      - split; [exists (fval (a_cont ax') k); split; [apply at_index_iff; [apply OX'|split; [destruct Hk; subst; assumption|reflexivity]]|symmetry; exact Ex]|].
        split; [exists (fval (a_cont ay') l); split; [apply at_index_iff; [apply OY'|split; [destruct Hl; subst; assumption|reflexivity]]|symmetry; exact Ey]|exact I]. }
    split; [apply fval_neq; auto; apply OX|]. split; [apply fval_neq; auto; apply OY|]. split; [apply fval_neq; auto; apply OX'|]. split; [apply fval_neq; auto; apply OY'|].
    rewrite (biv_found d c ax ay a g f be x y i0 i1 j0 j1 OX OY LX LY G FX FY), (biv_found d' c' ax' ay' a' g' f be x y k0 k1 l0 l1 OX' OY' LX' LY' G' FX' FY').
    rewrite !no_angle_min by assumption. auto.
  - left. eexists. split; [|split; [|reflexivity]]; intro f0.
    + apply (C52_outside d c ax ay a g f0 be x y G RX RY LX LY AX AY). right. exact IY.
    + apply (C52_outside d' c' ax' ay' a' g' f0 be x y G' RX' RY' LX' LY' AX' AY'). right. intro H. apply IY. exact (same_values_inside _ _ y (same_values_sym _ _ SY) H).
  - left. eexists. split; [|split; [|reflexivity]]; intro f0.
    + apply (C52_outside d c ax ay a g f0 be x y G RX RY LX LY AX AY). left. exact IX.
    + apply (C52_outside d' c' ax' ay' a' g' f0 be x y G' RX' RY' LX' LY' AX' AY'). left. intro H. apply IX. exact (same_values_inside _ _ x (same_values_sym _ _ SX) H).
Qed.
Lemma same_outside : forall be : bool, same_answer (if be then Throw "out of bounds" else Ok None) (if be then Throw "out of bounds" else Ok None).
Proof. intros []; reflexivity. Qed.

(** For a point that is on no line of the grid every interpolator gives the same answer, whatever
    values are missing. *)
Theorem C104_off_lines : forall d c f ax ay a g ax' ay' a' g' be x y, respectful d -> respectful c ->
  new_grid2 ax ay a = Ok g -> new_grid2 ax' ay' a' = Ok g' ->
  reachable ax -> reachable ay -> reachable ax' -> reachable ay' -> 1 < len ax -> 1 < len ay -> 1 < len ax' -> 1 < len ay' ->
  is_angle ax = false -> is_angle ay = false -> is_angle ax' = false -> is_angle ay' = false ->
  same_field [ZReal ax; ZReal ay] a [ZReal ax'; ZReal ay'] a' ->
  (forall i v, at_index ax i v -> ~ (v == x)%Q) -> (forall i v, at_index ay i v -> ~ (v == y)%Q) ->
  same_answer (bivariate d c g f be x y) (bivariate d c g' f be x y).
Proof.
  intros d c f ax ay a g ax' ay' a' g' be x y Rd Rc G G' RX RY RX' RY' LX LY LX' LY' AX AY AX' AY' SF NX NY.
  destruct (two_grids d c d c f ax ay a g ax' ay' a' g' be x y G G' RX RY RX' RY' LX LY LX' LY' AX AY AX' AY' SF) as [(r & E & E' & ->)|H]; [rewrite E, E'; apply same_outside|].
  destruct H as (i0 & i1 & j0 & j1 & k0 & k1 & l0 & l1 & FX & FY & FX' & FY' & SX & SY & Ce & N1 & N2 & N3 & N4 & -> & ->).
  pose proof (reachable_ok _ RX) as OX. pose proof (reachable_ok _ RY) as OY. pose proof (reachable_ok _ RX') as OX'. pose proof (reachable_ok _ RY') as OY'.
  assert (LA : forall b z m0 m1, axis_ok b -> 1 < len b -> find_indexes b z = Ok (Some (m0, m1)) -> (forall i v, at_index b i v -> ~ (v == z)%Q) -> ~ (z == fval (a_cont b) m0)%Q /\ ~ (z == fval (a_cont b) m1)%Q).
  { intros b z m0 m1 OB LB FB NB. pose proof (find_indexes_range b z m0 m1 OB LB FB) as [R0 R1].
    split; intro X; [apply (NB m0 (fval (a_cont b) m0))|apply (NB m1 (fval (a_cont b) m1))]; try (symmetry; exact X); (apply at_index_iff; [apply OB|split; [assumption|reflexivity]]). }
  destruct (LA ax x i0 i1 OX LX FX NX) as [X0 X1]. destruct (LA ay y j0 j1 OY LY FY NY) as [Y0 Y1].
  destruct (same_cells ax ax' x i0 i1 k0 k1 OX OX' LX LX' AX AX' SX FX FX') as [[E0 E1]|[[?|?] _]]; [|contradiction|contradiction].
  destruct (same_cells ay ay' y j0 j1 l0 l1 OY OY' LY LY' AY AY' SY FY FY') as [[F0 F1]|[[?|?] _]]; [|contradiction|contradiction].
  rewrite (Ce i0 k0 j0 l0), (Ce i0 k0 j1 l1), (Ce i1 k1 j0 l0), (Ce i1 k1 j1 l1) by auto.
  pose proof (evaluate_cong d c f (Point x y) (Point x y) (Point (fval (a_cont ax) i0) (fval (a_cont ay) j0)) (Point (fval (a_cont ax) i1) (fval (a_cont ay) j1))
    (Point (fval (a_cont ax') k0) (fval (a_cont ay') l0)) (Point (fval (a_cont ax') k1) (fval (a_cont ay') l1))
    (nd_cell a' [k0; l0]) (nd_cell a' [k0; l1]) (nd_cell a' [k1; l0]) (nd_cell a' [k1; l1]) Rd Rc) as Ev. cbn [px py] in Ev.
  specialize (Ev ltac:(reflexivity) ltac:(reflexivity) E0 F0 E1 F1). unfold same_value in Ev. unfold same_answer.
  destruct (evaluate d c f _ _ _ _ _ _ _), (evaluate d c f _ _ _ _ _ _ _); auto.
Qed.
Print Assumptions C104_off_lines.

(** ** The nearest neighbour *)
(** Moving along one coordinate away from the point increases the distance. *)
Definition monotone_distance (c : point -> point -> Q) : Prop :=
  (forall p q r, (py q == py r)%Q -> (px p == px q)%Q -> ~ (px p == px r)%Q -> (c p q < c p r)%Q) /\
  (forall p q r, (px q == px r)%Q -> (py p == py q)%Q -> ~ (py p == py r)%Q -> (c p q < c p r)%Q).
Definition best (d00 d01 d10 d11 : Q) (q00 q01 q10 q11 : option Q) : option Q :=
  let b := if Qltb d01 d00 then (d01, q01) else (d00, q00) in
  let b := if Qltb d10 (fst b) then (d10, q10) else b in
  let b := if Qltb d11 (fst b) then (d11, q11) else b in snd b.
Lemma best_eq : forall d c p p0 p1 q00 q01 q10 q11, evaluate d c Nearest p p0 p1 q00 q01 q10 q11 =
  best (c p (Point (px p0) (py p0))) (c p (Point (px p0) (py p1))) (c p (Point (px p1) (py p0))) (c p (Point (px p1) (py p1))) q00 q01 q10 q11.
Proof. reflexivity. Qed.
Ltac comparisons := repeat match goal with |- context [Qltb ?a ?b] => is_var a; is_var b; let E := fresh in destruct (Qltb a b) eqn:E; cbn [fst snd]; [apply Qltb_true in E|apply Qltb_false in E] end.
Lemma best_x0 : forall d00 d01 d10 d11 q00 q01 q10 q11, (d00 < d10)%Q -> (d01 < d11)%Q -> best d00 d01 d10 d11 q00 q01 q10 q11 = if Qltb d01 d00 then q01 else q00.
Proof. intros. unfold best. cbv zeta. comparisons; try reflexivity; exfalso; lra. Qed.
Lemma best_x1 : forall d00 d01 d10 d11 q00 q01 q10 q11, (d10 < d00)%Q -> (d11 < d01)%Q -> best d00 d01 d10 d11 q00 q01 q10 q11 = if Qltb d11 d10 then q11 else q10.
Proof. intros. unfold best. cbv zeta. comparisons; try reflexivity; exfalso; lra. Qed.
Lemma best_y0 : forall d00 d01 d10 d11 q00 q01 q10 q11, (d00 < d01)%Q -> (d10 < d11)%Q -> best d00 d01 d10 d11 q00 q01 q10 q11 = if Qltb d10 d00 then q10 else q00.
Proof. intros. unfold best. cbv zeta. comparisons; try reflexivity; exfalso; lra. Qed.
Lemma best_y1 : forall d00 d01 d10 d11 q00 q01 q10 q11, (d01 < d00)%Q -> (d11 < d10)%Q -> best d00 d01 d10 d11 q00 q01 q10 q11 = if Qltb d11 d01 then q11 else q01.
Proof. intros. unfold best. cbv zeta. comparisons; try reflexivity; exfalso; lra. Qed.
Lemma nearest_on_x : forall d c (fx fy : Z -> Q) (q : Z -> Z -> option Q) x y i0 i1 j0 j1, monotone_distance c -> ~ (fx i0 == fx i1)%Q -> (x == fx i0)%Q \/ (x == fx i1)%Q ->
  exists i, (i = i0 \/ i = i1) /\ (x == fx i)%Q /\
    evaluate d c Nearest (Point x y) (Point (fx i0) (fy j0)) (Point (fx i1) (fy j1)) (q i0 j0) (q i0 j1) (q i1 j0) (q i1 j1) =
    if Qltb (c (Point x y) (Point (fx i) (fy j1))) (c (Point x y) (Point (fx i) (fy j0))) then q i j1 else q i j0.
Proof.
  intros d c fx fy q x y i0 i1 j0 j1 [M _] N [E|E]; [exists i0|exists i1]; (split; [tauto|]); (split; [exact E|]); rewrite best_eq; cbn [px py].
  - apply best_x0; apply M; cbn [px py]; try reflexivity; try exact E; intro X; apply N; rewrite <- E; exact X.
  - apply best_x1; apply M; cbn [px py]; try reflexivity; try exact E; intro X; apply N; rewrite <- E; symmetry; exact X.
Qed.
Lemma nearest_on_y : forall d c (fx fy : Z -> Q) (q : Z -> Z -> option Q) x y i0 i1 j0 j1, monotone_distance c -> ~ (fy j0 == fy j1)%Q -> (y == fy j0)%Q \/ (y == fy j1)%Q ->
  exists j, (j = j0 \/ j = j1) /\ (y == fy j)%Q /\
    evaluate d c Nearest (Point x y) (Point (fx i0) (fy j0)) (Point (fx i1) (fy j1)) (q i0 j0) (q i0 j1) (q i1 j0) (q i1 j1) =
    if Qltb (c (Point x y) (Point (fx i1) (fy j))) (c (Point x y) (Point (fx i0) (fy j))) then q i1 j else q i0 j.
Proof.
  intros d c fx fy q x y i0 i1 j0 j1 [_ M] N [E|E]; [exists j0|exists j1]; (split; [tauto|]); (split; [exact E|]); rewrite best_eq; cbn [px py].
  - apply best_y0; apply M; cbn [px py]; try reflexivity; try exact E; intro X; apply N; rewrite <- E; exact X.
  - apply best_y1; apply M; cbn [px py]; try reflexivity; try exact E; intro X; apply N; rewrite <- E; symmetry; exact X.
Qed.
Lemma same_value_refl : forall v, same_value v v.
Proof. intros [v|]; cbn; [reflexivity|exact I]. Qed.
(** The nearest neighbour is the same, everywhere and whatever values are missing. *)
Theorem C104_nearest : forall d c ax ay a g ax' ay' a' g' be x y, respectful d -> respectful c -> monotone_distance c ->
  new_grid2 ax ay a = Ok g -> new_grid2 ax' ay' a' = Ok g' ->
  reachable ax -> reachable ay -> reachable ax' -> reachable ay' -> 1 < len ax -> 1 < len ay -> 1 < len ax' -> 1 < len ay' ->
  is_angle ax = false -> is_angle ay = false -> is_angle ax' = false -> is_angle ay' = false ->
  same_field [ZReal ax; ZReal ay] a [ZReal ax'; ZReal ay'] a' ->
  same_answer (bivariate d c g Nearest be x y) (bivariate d c g' Nearest be x y).
Proof.
  intros d c ax ay a g ax' ay' a' g' be x y Rd Rc Mc G G' RX RY RX' RY' LX LY LX' LY' AX AY AX' AY' SF.
  destruct (two_grids d c d c Nearest ax ay a g ax' ay' a' g' be x y G G' RX RY RX' RY' LX LY LX' LY' AX AY AX' AY' SF) as [(r & E & E' & ->)|H]; [rewrite E, E'; apply same_outside|].
  destruct H as (i0 & i1 & j0 & j1 & k0 & k1 & l0 & l1 & FX & FY & FX' & FY' & SX & SY & Ce & N1 & N2 & N3 & N4 & -> & ->).
  pose proof (reachable_ok _ RX) as OX. pose proof (reachable_ok _ RY) as OY. pose proof (reachable_ok _ RX') as OX'. pose proof (reachable_ok _ RY') as OY'.
  match goal with |- same_answer (Ok ?u) (Ok ?v) => cut (same_value u v); [unfold same_value, same_answer; destruct u, v; auto|] end.
  destruct (same_cells ax ax' x i0 i1 k0 k1 OX OX' LX LX' AX AX' SX FX FX') as [[E0 E1]|[Sx Sx']].
  - destruct (same_cells ay ay' y j0 j1 l0 l1 OY OY' LY LY' AY AY' SY FY FY') as [[F0 F1]|[Sy Sy']].
    + rewrite (Ce i0 k0 j0 l0), (Ce i0 k0 j1 l1), (Ce i1 k1 j0 l0), (Ce i1 k1 j1 l1) by auto. apply evaluate_cong; auto; reflexivity.
    + destruct (nearest_on_y d c (fval (a_cont ax)) (fval (a_cont ay)) (fun i j => nd_cell a [i; j]) x y i0 i1 j0 j1 Mc N2 Sy) as (j & Hj & Ej & Q). rewrite Q. clear Q.
      destruct (nearest_on_y d c (fval (a_cont ax')) (fval (a_cont ay')) (fun i j => nd_cell a' [i; j]) x y k0 k1 l0 l1 Mc N4 Sy') as (l & Hl & El & Q). rewrite Q. clear Q.
      assert (Ejl : (fval (a_cont ay) j == fval (a_cont ay') l)%Q) by (rewrite <- Ej; exact El).
      rewrite (Qltb_cong _ _ (c (Point x y) (Point (fval (a_cont ax') k1) (fval (a_cont ay') l))) (c (Point x y) (Point (fval (a_cont ax') k0) (fval (a_cont ay') l)))) by (apply Rc; cbn [px py]; auto; reflexivity).
      rewrite (Ce i0 k0 j l), (Ce i1 k1 j l) by auto. apply same_value_refl.
  - destruct (nearest_on_x d c (fval (a_cont ax)) (fval (a_cont ay)) (fun i j => nd_cell a [i; j]) x y i0 i1 j0 j1 Mc N1 Sx) as (i & Hi & Ei & Q). rewrite Q. clear Q.
    destruct (nearest_on_x d c (fval (a_cont ax')) (fval (a_cont ay')) (fun i j => nd_cell a' [i; j]) x y k0 k1 l0 l1 Mc N3 Sx') as (k & Hk & Ek & Q). rewrite Q. clear Q.
    assert (Eik : (fval (a_cont ax) i == fval (a_cont ax') k)%Q) by (rewrite <- Ei; exact Ek).
    destruct (same_cells ay ay' y j0 j1 l0 l1 OY OY' LY LY' AY AY' SY FY FY') as [[F0 F1]|[Sy Sy']].
    + rewrite (Qltb_cong _ _ (c (Point x y) (Point (fval (a_cont ax') k) (fval (a_cont ay') l1))) (c (Point x y) (Point (fval (a_cont ax') k) (fval (a_cont ay') l0)))) by (apply Rc; cbn [px py]; auto; reflexivity).
      rewrite (Ce i k j0 l0), (Ce i k j1 l1) by auto. apply same_value_refl.
    + (* a node *)
      assert (Node : forall (fx fy : Z -> Q) (arr : ndarray) m n0 n1, ~ (fy n0 == fy n1)%Q -> (y == fy n0)%Q \/ (y == fy n1)%Q ->
        exists n, (n = n0 \/ n = n1) /\ (y == fy n)%Q /\ (if Qltb (c (Point x y) (Point (fx m) (fy n1))) (c (Point x y) (Point (fx m) (fy n0))) then nd_cell arr [m; n1] else nd_cell arr [m; n0]) = nd_cell arr [m; n]).
      { intros fx fy arr m n0 n1 N [E|E]; [exists n0|exists n1]; (split; [tauto|]); (split; [exact E|]).
        - assert (L : (c (Point x y) (Point (fx m) (fy n0)) < c (Point x y) (Point (fx m) (fy n1)))%Q) by (apply (proj2 Mc); cbn [px py]; [reflexivity|exact E|intro X; apply N; rewrite <- E; exact X]).
          destruct (Qltb _ _) eqn:T; [apply Qltb_true in T; exfalso; lra|reflexivity].
        - assert (L : (c (Point x y) (Point (fx m) (fy n1)) < c (Point x y) (Point (fx m) (fy n0)))%Q) by (apply (proj2 Mc); cbn [px py]; [reflexivity|exact E|intro X; apply N; rewrite <- E; symmetry; exact X]).
          destruct (Qltb _ _) eqn:T; [reflexivity|apply Qltb_false in T; exfalso; lra]. }
      destruct (Node (fval (a_cont ax)) (fval (a_cont ay)) a i j0 j1 N2 Sy) as (j & Hj & Ej & ->). destruct (Node (fval (a_cont ax')) (fval (a_cont ay')) a' k l0 l1 N4 Sy') as (l & Hl & El & ->).
      rewrite (Ce i k j l) by (auto; rewrite <- Ej; exact El). apply same_value_refl.
Qed.
Print Assumptions C104_nearest.
(** The distance of the plane meets the hypotheses. *)
Definition gap2 (p q : point) : Q := ((px p - px q) * (px p - px q) + (py p - py q) * (py p - py q))%Q.
Theorem C104_gap2_ex : respectful gap2 /\ monotone_distance gap2.
Proof.
  unfold gap2. split; [intros p q p' q' A B C D; rewrite A, B, C, D; reflexivity|]. split; intros p q r E F N; rewrite <- E, F.
  - assert (0 < (px q - px r) * (px q - px r))%Q; [|lra]. destruct (Q_dec (px q) (px r)) as [[L|L]|L]; [nra|nra|exfalso; apply N; rewrite F; exact L].
  - assert (0 < (py q - py r) * (py q - py r))%Q; [|lra]. destruct (Q_dec (py q) (py r)) as [[L|L]|L]; [nra|nra|exfalso; apply N; rewrite F; exact L].
Qed.
(** The inverse distance weighting on a line of the grid depends on the direction of the axes: it is
    the other side of the line that is used. *)
Theorem C104_idw_refuted : exists h rx ry a p0 g0 h' p g v v', Forall z_reachable h /\ rx <> ry /\
  py_grid 2 None h [rx; ry] a = (h, Ok p0) /\ view h p0 = Ok (G2 g0) /\
  py_grid 2 (Some "inplace"%string) h [rx; ry] a = (h', Ok p) /\ view h' p = Ok (G2 g) /\ full (g2_x g0) (g2_y g0) (g2_array g0) /\
  bivariate gap2 gap2 g0 (InverseDistanceWeighting 2) true 1 (1 # 2) = Ok (Some v) /\
  bivariate gap2 gap2 g (InverseDistanceWeighting 2) true 1 (1 # 2) = Ok (Some v') /\ ~ (v == v')%Q.
Proof.
  exists [ZReal xdown; ZReal xup], 0%nat, 1%nat, slope. do 7 eexists.
  split; [repeat constructor; [exact xdown_reachable|exact xup_reachable]|]. split; [discriminate|].
  do 4 (split; [reflexivity|]). split; [intros i j _ _; eexists; reflexivity|]. split; [vm_compute; reflexivity|]. split; [vm_compute; reflexivity|]. discriminate.
Qed.
(** So does the bilinear interpolator when a value is missing. *)
Definition pierced : ndarray := NdArray [3; 3] (fun i => match i with [0; _] => None | [i; j] => Some (inject_Z (i + 10 * j)) | _ => None end).
Theorem C104_missing_refuted : exists h rx ry a p0 g0 h' p g v, Forall z_reachable h /\ rx <> ry /\
  py_grid 2 None h [rx; ry] a = (h, Ok p0) /\ view h p0 = Ok (G2 g0) /\
  py_grid 2 (Some "inplace"%string) h [rx; ry] a = (h', Ok p) /\ view h' p = Ok (G2 g) /\
  bivariate gap2 gap2 g0 Bilinear true 1 (1 # 2) = Ok (Some v) /\
  bivariate gap2 gap2 g Bilinear true 1 (1 # 2) = Ok None.
Proof.
  exists [ZReal xdown; ZReal xup], 0%nat, 1%nat, pierced. do 6 eexists.
  split; [repeat constructor; [exact xdown_reachable|exact xup_reachable]|]. split; [discriminate|].
  do 4 (split; [reflexivity|]). split; [vm_compute; reflexivity|]. vm_compute; reflexivity.
Qed.
Print Assumptions C104_missing_refuted.
