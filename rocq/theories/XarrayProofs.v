(** Lemmas about the Python grids. *)
From Coq Require Import Permutation.
From Verif Require Import Base BaseProofs MathModel MathProofs AxisModel AxisSpec AxisProofs AxisProofs2 AxisProofs3 AxisProofs5 AxisProofs6
  IntAxisModel IntAxisProofs GridModel GridSpec XarrayModel XarraySpec.
Open Scope Z_scope.

(** ** Axes *)
Definition i_good (c : icontainer) : Prop :=
  0 < i_size c /\ forall i j, 0 <= i < j -> j < i_size c -> if i_asc c then iv c i < iv c j else iv c j < iv c i.
Definition z_ok (z : zaxis) : Prop := match z with ZReal a => axis_ok a | ZTime c => i_good c end.
Definition z_val (z : zaxis) (i : Z) : Q := match z with ZReal a => fval (a_cont a) i | ZTime c => inject_Z (iv c i) end.

Lemma i_good_values : forall l c, int_axis_of_values l = Ok c -> i_good c.
Proof.
  intros l c H. unfold int_axis_of_values in H. destruct (i_is_evenly_spaced l) eqn:Ev.
  - unfold i_is_evenly_spaced in Ev. destruct l as [|a [|b t]]; try discriminate.
    set (l := a :: b :: t) in *. change (hd 0 l) with a in H.
    destruct (Z.leb_spec (Z.abs (Z.quot (last l 0 - a) (zlen l - 1))) 0) as [|E0]; [discriminate|].
    assert (Hn : 2 <= zlen l) by (unfold zlen, l; simpl; lia).
    unfold i_mk_regular in H. destruct (Z.eqb_spec (zlen l) 0); [lia|].
    destruct (Z.eqb_spec a (last l 0)); [discriminate|]. destruct (Z.eqb_spec (zlen l) 1); [lia|].
    destruct (Z.ltb_spec (zlen l) 2); [lia|].
    set (st := Z.quot (last l 0 - a) (zlen l - 1)) in *.
    assert (E := f_equal (fun o => match o with Ok z => z | _ => c end) H). cbv beta iota in E. subst c. clear H.
    split; cbn [i_size i_asc iv]; [lia|]. intros i j Hij Hj.
    destruct (Z.ltb_spec a (a + st)); clearbody st; nia.
  - destruct (Z.eqb_spec (zlen l) 0); [discriminate|]. destruct (i_adjacent_equal l) eqn:E1; [discriminate|]. cbn [negb andb] in H.
    destruct (i_sorted _ l) eqn:E2; [|discriminate]. injection H as <-.
    apply (i_sorted_wf _ l); auto. unfold zlen in *; lia.
Qed.
Lemma i_good_flip : forall c, i_good c -> i_good (i_flip c).
Proof.
  intros [a pts|a n s st s2] [P M]; cbn [i_flip i_size i_asc iv] in *.
  - split; cbn [i_size i_asc iv]; rewrite zlen_rev; [exact P|]. intros i j Hij Hj. rewrite !znth_rev by lia.
    specialize (M (zlen pts - 1 - j) (zlen pts - 1 - i) ltac:(lia) ltac:(lia)). destruct a; cbn [negb]; exact M.
  - split; cbn [i_size i_asc iv]; [exact P|]. intros i j Hij Hj. specialize (M i j Hij Hj). destruct a; cbn [negb]; nia.
Qed.
Lemma i_good_pickle : forall c d, i_good c -> i_pickle c = Ok d ->
  i_good d /\ i_size d = i_size c /\ (forall i, 0 <= i < i_size c -> iv d i = iv c i) /\ (1 < i_size c -> i_asc d = i_asc c).
Proof.
  intros [a pts|a n s st s2] d [P M] H; cbn [i_pickle i_size i_asc iv] in *.
  - destruct (Z.eqb_spec (zlen pts) 0); [lia|].
    assert (E := f_equal (fun o => match o with Ok z => z | _ => d end) H). cbv beta iota in E. subst d. clear H.
    assert (A : 1 < zlen pts -> (match pts with x :: y :: _ => x <? y | _ => true end) = a).
    { intro L. destruct pts as [|x [|y t]]; [unfold zlen in L; cbn in L; lia|unfold zlen in L; cbn in L; lia|].
      specialize (M 0 1 ltac:(lia) ltac:(lia)). change (znth (x :: y :: t) 0) with (Some x) in M. change (znth (x :: y :: t) 1) with (Some y) in M.
      destruct a; destruct (Z.ltb_spec x y); auto; lia. }
    split; [|split; [reflexivity|split; [reflexivity|exact A]]].
    split; cbn [i_size i_asc iv]; [exact P|]. intros i j Hij Hj. rewrite A by lia. apply M; lia.
  - unfold i_mk_regular in H. destruct (Z.eqb_spec n 0); [lia|]. destruct (Z.eqb_spec s (s + (n - 1) * st)); [discriminate|].
    destruct (Z.eqb_spec n 1) as [->|N1].
    { exfalso. lia. }
    assert (Q : Z.quot (s + (n - 1) * st - s) (n - 1) = st).
    { replace (s + (n - 1) * st - s) with (st * (n - 1)) by ring. apply Z.quot_mul. lia. }
    rewrite Q in H. destruct (Z.ltb_spec n 2); [lia|].
    assert (E := f_equal (fun o => match o with Ok z => z | _ => d end) H). cbv beta iota in E. subst d. clear H.
    specialize (M 0 1 ltac:(lia) ltac:(lia)) as M1. cbn [i_size iv i_asc].
    assert (A : (s <? s + st) = a). { destruct a; destruct (Z.ltb_spec s (s + st)); auto; lia. }
    split; [|split; [reflexivity|split; [reflexivity|intros _; exact A]]].
    split; cbn [i_size i_asc iv]; [exact P|]. rewrite A. exact M.
Qed.
Lemma i_reachable_good : forall c, i_reachable c -> i_good c.
Proof.
  intros c R. induction R as [l c H|c R IH|c d R IH H].
  - exact (i_good_values l c H).
  - apply i_good_flip. exact IH.
  - apply (i_good_pickle c d IH H).
Qed.
Lemma i_pickle_total : forall c, i_good c -> 1 < i_size c -> exists d, i_pickle c = Ok d.
Proof.
  intros [a pts|a n s st s2] [P M] L; cbn [i_pickle i_size i_asc iv] in *.
  - destruct (Z.eqb_spec (zlen pts) 0); [lia|]. eauto.
  - unfold i_mk_regular. destruct (Z.eqb_spec n 0); [lia|]. specialize (M 0 1 ltac:(lia) ltac:(lia)).
    destruct (Z.eqb_spec s (s + (n - 1) * st)); [destruct a; nia|]. eauto.
Qed.
Lemma z_reachable_ok : forall z, z_reachable z -> z_ok z.
Proof. intros [a|c] R; [apply reachable_ok|apply i_reachable_good]; exact R. Qed.

Lemma z_at_iff : forall z i v, z_ok z -> (z_at_index z i v <-> 0 <= i < z_size z /\ v = z_val z i).
Proof.
  intros [a|c] i v K; cbn [z_at_index z_size z_val z_ok] in *.
  - rewrite (at_index_iff a i v (proj1 K)). unfold len. reflexivity.
  - split.
    + intros (t & H & ->). apply i_at_iff in H as [H ->]. split; [exact H|reflexivity].
    + intros [H ->]. exists (iv c i). split; [apply i_at_iff; split; [exact H|reflexivity]|reflexivity].
Qed.
Lemma z_mono : forall z, z_ok z -> forall i j, 0 <= i < j -> j < z_size z ->
  if z_is_ascending z then (z_val z i < z_val z j)%Q else (z_val z j < z_val z i)%Q.
Proof.
  intros [a|c] K i j Hij Hj; cbn [z_ok z_val z_size z_is_ascending] in *.
  - pose proof (wf_mono (a_cont a) (proj1 K)) as M. unfold is_ascending. apply (M i j Hij Hj).
  - destruct K as [_ M]. specialize (M i j Hij Hj). destruct (i_asc c); apply inject_Z_lt; exact M.
Qed.
Lemma z_inj : forall z, z_ok z -> forall i j, 0 <= i < z_size z -> 0 <= j < z_size z -> (z_val z i == z_val z j)%Q -> i = j.
Proof.
  intros z K i j Hi Hj E. destruct (Z.lt_trichotomy i j) as [L|[L|L]]; [|exact L|]; exfalso.
  - pose proof (z_mono z K i j ltac:(lia) ltac:(lia)) as M. destruct (z_is_ascending z); lra.
  - pose proof (z_mono z K j i ltac:(lia) ltac:(lia)) as M. destruct (z_is_ascending z); lra.
Qed.
(** [z'] is [z], read backwards when [f]. *)
Definition z_same (z z' : zaxis) : Prop :=
  match z, z' with
  | ZReal a, ZReal b => a_is_circle b = a_is_circle a
  | ZTime _, ZTime _ => True
  | _, _ => False
  end.
Definition turned (f : bool) (z z' : zaxis) : Prop :=
  z_ok z' /\ z_size z' = z_size z /\ z_same z z' /\
  forall i, 0 <= i < z_size z -> (z_val z' i == z_val z (if f then z_size z - 1 - i else i))%Q.
Lemma turned_refl : forall z, z_ok z -> turned false z z.
Proof. intros z K. split; [exact K|]. split; [reflexivity|]. split; [destruct z; cbn [z_same]; auto|]. intros i _. reflexivity. Qed.
Lemma flip_turned : forall z, z_ok z -> exists z', z_py_flip true z = Ok z' /\ turned true z z' /\ z_is_ascending z' = negb (z_is_ascending z).
Proof.
  intros [a|c] K; cbn [z_py_flip py_flip obind z_ok] in *.
  - exists (ZReal (flip a)). split; [reflexivity|]. split; [|unfold z_is_ascending, is_ascending, flip; cbn [a_cont]; destruct K as [W _]; destruct (a_cont a); [destruct W|reflexivity|reflexivity]].
    split; [|split; [|split; [reflexivity|]]].
    + cbn [z_ok]. destruct K as (W & C1 & C2). split; [cbn [flip a_cont]; apply flip_wf; exact W|split; assumption].
    + cbn [z_size flip a_cont]. apply flip_size.
    + cbn [z_size z_val flip a_cont]. intros i Hi. apply flip_value; [apply K|exact Hi].
  - exists (ZTime (i_flip c)). split; [reflexivity|]. split; [|destruct c; reflexivity].
    split; [apply i_good_flip; exact K|]. split; [|split; [exact I|]].
    + cbn [z_size]. destruct c; cbn [i_flip i_size]; [apply zlen_rev|reflexivity].
    + cbn [z_size z_val]. intros i Hi. assert (H : i_at c (i_size c - 1 - i) (iv c (i_size c - 1 - i))) by (apply i_at_iff; split; [lia|reflexivity]).
      apply i_flip_at in H. replace (i_size c - 1 - (i_size c - 1 - i)) with i in H by ring. apply i_at_iff in H as [_ H]. rewrite H. reflexivity.
Qed.
Lemma turned_after : forall z m z' f, turned false z m -> turned f m z' -> turned f z z'.
Proof.
  intros z m z' f (K & S & Sa & V) (K' & S' & Sa' & V'). split; [exact K'|]. split; [congruence|].
  split; [destruct z, m, z'; cbn [z_same] in *; try contradiction; congruence|]. intros i Hi.
  rewrite V' by lia. rewrite S. destruct f; apply V; lia.
Qed.
Lemma copy_turned : forall z, z_ok z -> copyable z -> exists z', z_py_flip false z = Ok z' /\ turned true z z' /\ z_is_ascending z' = negb (z_is_ascending z).
Proof.
  intros [a|c] K [L C]; cbn [z_py_flip py_flip obind z_ok z_size] in *.
  - destruct (pickle_roundtrip a K) as (b & E & Lb & _ & Ci & _ & _ & Asc & V); [right; exact L|exact C|].
    assert (Kb : axis_ok b) by (apply (pickle_ok a b K E)).
    destruct (flip_turned (ZReal b) Kb) as (z' & F & T & A). cbn [z_py_flip py_flip obind] in F. rewrite E. cbn [obind].
    exists z'. split; [exact F|]. split; [|rewrite A; cbn [z_is_ascending]; rewrite Asc by exact L; reflexivity].
    refine (turned_after (ZReal a) (ZReal b) z' true _ T). split; [exact Kb|]. split; [exact Lb|]. split; [exact Ci|]. cbn [z_val z_size]. intros i Hi.
    destruct (V i (fval (a_cont a) i)) as (w & W & E'); [apply at_index_iff; [apply K|split; [exact Hi|reflexivity]]|].
    apply at_index_iff in W as [_ ->]; [exact E'|apply Kb].
  - destruct (i_pickle_total c K L) as [d E]. rewrite E. cbn [obind].
    destruct (i_good_pickle c d K E) as (Kd & S & V & A).
    destruct (flip_turned (ZTime d) Kd) as (z' & F & T & A'). cbn [z_py_flip] in F.
    exists z'. split; [exact F|]. split; [|rewrite A'; cbn [z_is_ascending]; rewrite A by exact L; reflexivity].
    refine (turned_after (ZTime c) (ZTime d) z' true _ T). split; [exact Kd|]. split; [exact S|]. split; [exact I|]. cbn [z_val z_size]. intros i Hi.
    rewrite V by exact Hi. reflexivity.
Qed.

(** ** Arrays read backwards *)
Fixpoint mirrors (flags : list bool) (shape index : list Z) : list Z :=
  match flags, shape, index with
  | f :: flags, n :: s, i :: t => (if f then n - 1 - i else i) :: mirrors flags s t
  | _, _, _ => index
  end.
Lemma mirrors_none : forall flags s i, Forall (fun f => f = false) flags -> mirrors flags s i = i.
Proof. induction flags as [|f l IH]; intros s i F; [reflexivity|]. inversion F; subst. destruct s, i; cbn [mirrors]; try reflexivity. rewrite IH by assumption. reflexivity. Qed.
Lemma mirror_mirrors : forall k flags s i,
  mirror k s (mirrors (repeat false (S k) ++ flags) s i) = mirrors (repeat false k ++ true :: flags) s i.
Proof.
  induction k as [|k IH]; intros flags [|n s] [|i t]; cbn [repeat app mirrors mirror]; try reflexivity.
  f_equal. apply (IH flags s t).
Qed.
Lemma mirrors_skip : forall k flags s i, mirrors (repeat false (S k) ++ flags) s i = mirrors (repeat false k ++ false :: flags) s i.
Proof. intros k flags s i. f_equal. cbn [repeat]. induction k as [|k IH]; [reflexivity|]. cbn [repeat app]. f_equal. exact IH. Qed.

(** ** The heap *)
Lemma put_length : forall h r z, length (put h r z) = length h.
Proof. induction h as [|a h IH]; intros [|r] z; cbn [put length]; auto. Qed.
Lemma put_same : forall h r z, (r < length h)%nat -> nth_error (put h r z) r = Some z.
Proof. induction h as [|a h IH]; intros [|r] z L; cbn [put length nth_error] in *; try lia; auto. apply IH. lia. Qed.
Lemma put_other : forall h r s z, r <> s -> nth_error (put h r z) s = nth_error h s.
Proof. induction h as [|a h IH]; intros [|r] [|s] z N; cbn [put nth_error]; auto; try congruence. Qed.
Lemma nth_error_lt {A} : forall (h : list A) r z, nth_error h r = Some z -> (r < length h)%nat.
Proof. intros h r z E. apply nth_error_Some. congruence. Qed.
Lemma deref_map : forall h refs axes, deref h refs = Ok axes <-> map (nth_error h) refs = map Some axes.
Proof.
  intros h refs. induction refs as [|r t IH]; intros axes; cbn [deref map].
  - destruct axes; cbn [map]; split; intro H; try discriminate; reflexivity.
  - destruct (nth_error h r) as [z|] eqn:E.
    + destruct (deref h t) as [l| |] eqn:D; cbn [obind].
      * split.
        -- intro H. assert (X := f_equal (fun o => match o with Ok z => z | _ => [] end) H). cbv beta iota in X. subst axes. cbn [map]. f_equal. apply IH. reflexivity.
        -- destruct axes as [|a axes]; cbn [map]; [discriminate|]. intro H. injection H as <- H. apply IH in H. injection H as <-. reflexivity.
      * split; [discriminate|]. destruct axes as [|a axes]; cbn [map]; [discriminate|]. intro H. injection H as <- H. apply IH in H. discriminate.
      * split; [discriminate|]. destruct axes as [|a axes]; cbn [map]; [discriminate|]. intro H. injection H as <- H. apply IH in H. discriminate.
    + split; [discriminate|]. destruct axes; discriminate.
Qed.

(** ** The loop *)
Definition preserved (inplace : bool) (todo : list nat) (h h' : heap) : Prop :=
  forall r z, nth_error h r = Some z -> inplace = false \/ ~ In r todo -> nth_error h' r = Some z.
Lemma increase_spec : forall inplace todo h idx done a axes,
  map (nth_error h) todo = map Some axes -> Forall z_ok axes ->
  (inplace = false -> Forall (fun z => z_is_ascending z = false -> copyable z) axes) ->
  (inplace = true -> NoDup todo) ->
  length (nd_shape a) = (idx + length todo)%nat ->
  exists h' refs' a' flags axes', increase inplace h idx todo done a = (h', Ok (rev done ++ refs', a')) /\
    map (nth_error h') refs' = map Some axes' /\ length flags = length axes /\
    Forall2 (fun fz z' => turned (fst fz) (snd fz) z') (combine flags axes) axes' /\
    Forall (fun z => z_is_ascending z = true) axes' /\
    Forall2 (fun f z => f = negb (z_is_ascending z)) flags axes /\
    nd_shape a' = nd_shape a /\ (forall i, nd_cell a' i = nd_cell a (mirrors (repeat false idx ++ flags) (nd_shape a) i)) /\
    preserved inplace todo h h' /\ (inplace = true -> refs' = todo /\ length h' = length h).
Proof.
  intros inplace. induction todo as [|r todo IH]; intros h idx done a axes D K C N L.
  - destruct axes; [|discriminate]. exists h, [], a, [], []. cbn [increase combine map app]. rewrite !app_nil_r.
    split; [reflexivity|]. split; [reflexivity|]. split; [reflexivity|]. split; [constructor|]. split; [constructor|]. split; [constructor|].
    split; [reflexivity|]. split.
    { intro i. rewrite mirrors_none; [reflexivity|]. apply Forall_forall. intros f F. apply repeat_spec in F. exact F. }
    split; [intros r z E _; exact E|auto].
  - destruct axes as [|z axes]; [discriminate|]. cbn [map] in D.
    assert (Ez : nth_error h r = Some z) by (injection D; auto). assert (D' : map (nth_error h) todo = map Some axes) by (injection D; auto). clear D.
    inversion K as [|? ? Kz Ks]; subst. cbn [increase]. rewrite Ez. cbn [length] in L.
    assert (Nt : inplace = true -> NoDup todo /\ ~ In r todo) by (intro X; specialize (N X); inversion N; auto).
    destruct (z_is_ascending z) eqn:A.
    + destruct (IH h (S idx) (r :: done) a axes D' Ks) as (h' & refs' & a' & flags & axes' & E & M & Lf & T & As & Fl & S & V & P & I).
      { intro X. specialize (C X). inversion C; auto. } { intro X. apply Nt. exact X. } { lia. }
      exists h', (r :: refs'), a', (false :: flags), (z :: axes'). cbn [rev] in E. rewrite <- app_assoc in E. split; [exact E|].
      assert (Pr : nth_error h' r = Some z). { apply P; [exact Ez|]. destruct inplace; [right; apply Nt; reflexivity|left; reflexivity]. }
      split; [cbn [map]; rewrite Pr, M; reflexivity|]. split; [cbn [length]; lia|].
      split; [cbn [combine]; constructor; [cbn [fst snd]; apply turned_refl; exact Kz|exact T]|].
      split; [constructor; assumption|]. split; [constructor; [rewrite A; reflexivity|exact Fl]|]. split; [exact S|].
      split; [intro i; rewrite V; f_equal; apply mirrors_skip|].
      split; [intros q y Q O; apply P; [exact Q|destruct O as [O|O]; [left; exact O|right; intro X; apply O; right; exact X]]|].
      intro X. destruct (I X) as [-> Lh]. auto.
    + assert (F : exists z', z_py_flip inplace z = Ok z' /\ turned true z z' /\ z_is_ascending z' = negb (z_is_ascending z)).
      { destruct inplace; [apply flip_turned; exact Kz|apply copy_turned; [exact Kz|]]. specialize (C eq_refl). inversion C; auto. }
      destruct F as (z' & F & Tz & Az). rewrite A in Az. cbn [negb] in Az. rewrite F.
      unfold numpy_flip. assert (Lt : Nat.ltb idx (length (nd_shape a)) = true) by (apply Nat.ltb_lt; lia). rewrite Lt.
      set (h1 := if inplace then put h r z' else h ++ [z']). set (r1 := if inplace then r else length h).
      set (a1 := NdArray (nd_shape a) (fun i => nd_cell a (mirror idx (nd_shape a) i))).
      assert (Er : nth_error h1 r1 = Some z').
      { unfold h1, r1. destruct inplace; [apply put_same; apply (nth_error_lt _ _ _ Ez)|]. rewrite nth_error_app2 by lia. rewrite Nat.sub_diag. reflexivity. }
      assert (P1 : forall q y, nth_error h q = Some y -> inplace = false \/ q <> r -> nth_error h1 q = Some y).
      { intros q y Q O. unfold h1. destruct inplace.
        - rewrite put_other; [exact Q|]. destruct O as [O|O]; [discriminate|congruence].
        - rewrite nth_error_app1; [exact Q|]. apply (nth_error_lt _ _ _ Q). }
      assert (D1 : map (nth_error h1) todo = map Some axes).
      { rewrite <- D'. apply map_ext_in. intros q Q. destruct (nth_error h q) as [y|] eqn:Y.
        - apply P1; [exact Y|]. destruct inplace; [right; intros ->; apply (proj2 (Nt eq_refl)); exact Q|left; reflexivity].
        - exfalso. assert (X : In (nth_error h q) (map (nth_error h) todo)) by (apply in_map; exact Q). rewrite D', Y in X. apply in_map_iff in X as (? & ? & ?). discriminate. }
      destruct (IH h1 (S idx) (r1 :: done) a1 axes D1 Ks) as (h' & refs' & a' & flags & axes' & E & M & Lf & T & As & Fl & S & V & P & I).
      { intro X. specialize (C X). inversion C; auto. } { intro X. apply Nt. exact X. } { cbn [nd_shape a1]. lia. }
      exists h', (r1 :: refs'), a', (true :: flags), (z' :: axes'). cbn [rev] in E. rewrite <- app_assoc in E. split; [exact E|].
      assert (Pr : nth_error h' r1 = Some z').
      { apply P; [exact Er|]. unfold r1. destruct inplace; [right; apply Nt; reflexivity|left; reflexivity]. }
      split; [cbn [map]; rewrite Pr, M; reflexivity|]. split; [cbn [length]; lia|].
      split; [cbn [combine]; constructor; [cbn [fst snd]; exact Tz|exact T]|].
      split; [constructor; assumption|]. split; [constructor; [rewrite A; reflexivity|exact Fl]|]. split; [exact S|].
      split; [intro i; rewrite V; cbn [nd_cell nd_shape a1]; f_equal; apply mirror_mirrors|].
      split.
      { intros q y Q O. apply P; [apply P1; [exact Q|]|]; destruct O as [O|O]; auto; right; intro X; apply O; [left; congruence|right; exact X]. }
      intro X. destruct (I X) as [-> Lh]. subst inplace. split; [reflexivity|]. rewrite Lh. apply put_length.
Qed.

(** ** Fields *)
Lemma located_length : forall axes i v, located axes i v -> length i = length axes /\ length v = length axes.
Proof. induction axes as [|z axes IH]; intros [|i t] [|x v] L; cbn [located] in L; try contradiction; [auto|]. destruct L as [_ L]. apply IH in L as [L1 L2]. cbn [length]. lia. Qed.
Lemma turned_located : forall flags axes axes', length flags = length axes ->
  Forall2 (fun fz z' => turned (fst fz) (snd fz) z') (combine flags axes) axes' -> Forall z_ok axes ->
  forall i v, located axes i v -> located axes' (mirrors flags (map z_size axes) i) v.
Proof.
  induction flags as [|f flags IH]; intros [|z axes] axes' L T K [|i t] [|x v] H; cbn [located length combine] in *; try contradiction; try discriminate; inversion T as [|? z' ? axs Tz Ts]; subst.
  - exact I.
  - cbn [map mirrors located]. inversion K as [|? ? Kz Ks]; subst. destruct H as [(w & W & E) H]. split; [|apply IH; auto].
    destruct Tz as (Kz' & S & _ & V). cbn [fst snd] in *. apply z_at_iff in W as [Hi ->]; [|exact Kz].
    exists (z_val z' (if f then z_size z - 1 - i else i)). split; [apply z_at_iff; [exact Kz'|split; [rewrite S; destruct f; lia|reflexivity]]|].
    rewrite V by (destruct f; lia). rewrite <- E. destruct f; [|reflexivity]. replace (z_size z - 1 - (z_size z - 1 - i)) with i by ring. reflexivity.
Qed.
Lemma turned_located_inv : forall flags axes axes', length flags = length axes ->
  Forall2 (fun fz z' => turned (fst fz) (snd fz) z') (combine flags axes) axes' -> Forall z_ok axes ->
  forall i v, located axes' i v -> located axes (mirrors flags (map z_size axes) i) v.
Proof.
  induction flags as [|f flags IH]; intros [|z axes] axes' L T K i0 v0 H; cbn [located length combine] in *; try discriminate; inversion T as [|? z' ? axs Tz Ts]; subst;
    destruct i0 as [|i t], v0 as [|x v]; cbn [located] in H; try contradiction.
  - exact I.
  - cbn [map mirrors located]. inversion K as [|? ? Kz Ks]; subst. destruct H as [(w & W & E) H]. split; [|apply (IH axes axs); auto].
    destruct Tz as (Kz' & S & _ & V). cbn [fst snd] in *. apply z_at_iff in W as [Hi ->]; [|exact Kz']. rewrite S in Hi.
    exists (z_val z (if f then z_size z - 1 - i else i)). split; [apply z_at_iff; [exact Kz|split; [destruct f; lia|reflexivity]]|].
    rewrite <- V by lia. exact E.
Qed.
Lemma located_inj : forall axes i j v, Forall z_ok axes -> located axes i v -> located axes j v -> i = j.
Proof.
  induction axes as [|z axes IH]; intros [|i t] [|j u] [|x v] K A B; cbn [located] in *; try contradiction; [reflexivity|].
  inversion K as [|? ? Kz Ks]; subst. destruct A as [(w & W & E) A], B as [(w' & W' & E') B]. f_equal; [|apply (IH t u v Ks A B)].
  apply z_at_iff in W as [Hi ->]; [|exact Kz]. apply z_at_iff in W' as [Hj ->]; [|exact Kz]. apply (z_inj z Kz i j Hi Hj). lra.
Qed.
Lemma turned_same_field : forall flags axes axes' a a', length flags = length axes ->
  Forall2 (fun fz z' => turned (fst fz) (snd fz) z') (combine flags axes) axes' -> Forall z_ok axes -> fits axes a ->
  (forall i, nd_cell a' i = nd_cell a (mirrors flags (nd_shape a) i)) -> same_field axes a axes' a'.
Proof.
  intros flags axes axes' a a' L T K Ft V. unfold fits in Ft. split.
  - intro v. split; intros [i H].
    + exists (mirrors flags (map z_size axes) i). apply (turned_located flags axes axes' L T K i v H).
    + exists (mirrors flags (map z_size axes) i). apply (turned_located_inv flags axes axes' L T K i v H).
  - intros v i j H J. rewrite V, Ft. f_equal.
    apply (located_inj axes i _ v K H). apply (turned_located_inv flags axes axes' L T K j v J).
Qed.
Lemma ascending_spec : forall z, z_ok z -> z_is_ascending z = true -> ascending_values z.
Proof.
  intros z K A i j v w L H J. apply z_at_iff in H as [Hi ->]; [|exact K]. apply z_at_iff in J as [Hj ->]; [|exact K].
  pose proof (z_mono z K i j ltac:(lia) ltac:(lia)) as M. rewrite A in M. exact M.
Qed.

(** ** The constructors of the core *)
Lemma new_grid2_dim_fits : forall dim x y a, new_grid2_dim dim x y a = Ok tt ->
  length (nd_shape a) = dim /\ nth_error (nd_shape a) 0 = Some (c_size (a_cont x)) /\ nth_error (nd_shape a) 1 = Some (c_size (a_cont y)).
Proof.
  intros dim x y a H. unfold new_grid2_dim, check_ndim, check_shape in H.
  destruct (Nat.eqb_spec (length (nd_shape a)) dim) as [E|]; [|discriminate]. cbn [obind] in H.
  destruct (nth_error (nd_shape a) 0) as [n|]; [|discriminate]. destruct (Z.eqb_spec (c_size (a_cont x)) n) as [->|]; [|discriminate]. cbn [obind] in H.
  destruct (nth_error (nd_shape a) 1) as [m|]; [|discriminate]. destruct (Z.eqb_spec (c_size (a_cont y)) m) as [->|]; [|discriminate]. auto.
Qed.
Lemma core_new_parts : forall dim axes a c, core_new dim axes a = Ok c -> parts c = (axes, a) /\ fits axes a.
Proof.
  intros dim axes a c H. unfold core_new in H.
  destruct dim as [|[|[|[|[|]]]]]; try discriminate;
    destruct axes as [|[x|?] axes]; try discriminate; destruct axes as [|[y|?] axes]; try discriminate; destruct axes as [|z axes]; try discriminate.
  - unfold new_grid2 in H. destruct (new_grid2_dim 2 x y a) as [[]| |] eqn:E; try discriminate. cbn [obind] in H. injection H as <-.
    split; [reflexivity|]. apply new_grid2_dim_fits in E as (L & E0 & E1). unfold fits. destruct (nd_shape a) as [|n [|m [|]]]; cbn in L, E0, E1; try discriminate. cbn [map z_size]. congruence.
  - destruct axes as [|? ?]; [|destruct z; discriminate]. unfold new_grid3 in H.
    destruct (new_grid3_dim 3 x y z a) as [[]| |] eqn:E; [|destruct z; discriminate|destruct z; discriminate].
    assert (H' : Ok (G3 (Grid3 x y z a)) = Ok c) by (destruct z; exact H). injection H' as <-.
    split; [reflexivity|]. unfold new_grid3_dim in E. destruct (new_grid2_dim 3 x y a) as [[]| |] eqn:E'; try discriminate. cbn [obind] in E.
    apply new_grid2_dim_fits in E' as (L & E0 & E1). unfold check_shape in E.
    destruct (nth_error (nd_shape a) 2) as [n|] eqn:E2; [|discriminate]. destruct (Z.eqb_spec (z_size z) n) as [En|]; [|discriminate].
    unfold fits. destruct (nd_shape a) as [|n0 [|n1 [|n2 [|]]]]; cbn in L, E0, E1, E2; try discriminate. cbn [map z_size]. congruence.
  - destruct axes as [|[u|?] axes]; [destruct z; discriminate| |destruct z; discriminate]. destruct axes as [|? ?]; [|destruct z; discriminate]. unfold new_grid4 in H.
    destruct (new_grid3_dim 4 x y z a) as [[]| |] eqn:E; [|destruct z; discriminate|destruct z; discriminate]. cbn [obind] in H.
    destruct (check_shape a 3 (c_size (a_cont u))) as [[]| |] eqn:E3; [|destruct z; discriminate|destruct z; discriminate]. cbn [obind] in H.
    destruct (a_is_circle u); [destruct z; discriminate|].
    assert (H' : Ok (G4 (Grid4 x y z u a)) = Ok c) by (destruct z; exact H). injection H' as <-.
    split; [reflexivity|]. unfold new_grid3_dim in E. destruct (new_grid2_dim 4 x y a) as [[]| |] eqn:E'; try discriminate. cbn [obind] in E.
    apply new_grid2_dim_fits in E' as (L & E0 & E1). unfold check_shape in E, E3.
    destruct (nth_error (nd_shape a) 2) as [n|] eqn:E2; [|discriminate]. destruct (Z.eqb_spec (z_size z) n) as [En|]; [|discriminate].
    destruct (nth_error (nd_shape a) 3) as [m|] eqn:E4; [|discriminate]. destruct (Z.eqb_spec (c_size (a_cont u)) m) as [Em|]; [|discriminate].
    unfold fits. destruct (nd_shape a) as [|n0 [|n1 [|n2 [|n3 [|]]]]]; cbn in L, E0, E1, E2, E4; try discriminate. cbn [map z_size]. congruence.
Qed.
Lemma new_grid2_dim_cong : forall dim x y x' y' a a', c_size (a_cont x') = c_size (a_cont x) -> c_size (a_cont y') = c_size (a_cont y) ->
  a_is_circle y' = a_is_circle y -> nd_shape a' = nd_shape a -> new_grid2_dim dim x' y' a' = new_grid2_dim dim x y a.
Proof. intros dim x y x' y' a a' E1 E2 E3 E4. unfold new_grid2_dim, check_ndim, check_shape. rewrite E1, E2, E3, E4. reflexivity. Qed.
Lemma z_same_circle : forall z z', z_same z z' -> z_is_circle z' = z_is_circle z.
Proof. intros [a|c] [b|d] S; cbn [z_same z_is_circle] in *; auto; contradiction. Qed.
Lemma new_grid3_dim_cong : forall dim x y z x' y' z' a a', c_size (a_cont x') = c_size (a_cont x) -> c_size (a_cont y') = c_size (a_cont y) ->
  a_is_circle y' = a_is_circle y -> z_size z' = z_size z -> z_same z z' -> nd_shape a' = nd_shape a -> new_grid3_dim dim x' y' z' a' = new_grid3_dim dim x y z a.
Proof.
  intros dim x y z x' y' z' a a' E1 E2 E3 E4 E5 E6. unfold new_grid3_dim. rewrite (new_grid2_dim_cong dim x y x' y' a a' E1 E2 E3 E6).
  unfold check_shape. rewrite E4, E6, (z_same_circle z z' E5). reflexivity.
Qed.
Lemma core_new_cong : forall dim axes axes' a a' c, Forall2 (fun z z' => z_size z' = z_size z /\ z_same z z') axes axes' -> nd_shape a' = nd_shape a ->
  core_new dim axes a = Ok c -> exists c', core_new dim axes' a' = Ok c'.
Proof.
  intros dim axes axes' a a' c F Sh H. unfold core_new in H.
  destruct dim as [|[|[|[|[|]]]]]; try discriminate;
    destruct axes as [|[x|?] axes]; try discriminate; destruct axes as [|[y|?] axes]; try discriminate; destruct axes as [|z axes]; try discriminate;
    inversion F as [|? x' ? l1 [Lx Sx] F1]; subst; inversion F1 as [|? y' ? l2 [Ly Sy] F2]; subst;
    destruct x' as [x'|?]; cbn [z_same] in Sx; try contradiction; destruct y' as [y'|?]; cbn [z_same] in Sy; try contradiction; cbn [z_size] in Lx, Ly.
  - inversion F2; subst. unfold core_new, new_grid2 in *. rewrite (new_grid2_dim_cong 2 x y x' y' a a' Lx Ly Sy Sh).
    destruct (new_grid2_dim 2 x y a) as [[]| |]; try discriminate. eexists. reflexivity.
  - destruct axes as [|? ?]; [|destruct z; discriminate]. inversion F2 as [|? z' ? l3 [Lz Sz] F3]; subst. inversion F3; subst.
    unfold core_new, new_grid3 in *. rewrite (new_grid3_dim_cong 3 x y z x' y' z' a a' Lx Ly Sy Lz Sz Sh).
    destruct (new_grid3_dim 3 x y z a) as [[]| |]; [|destruct z; discriminate|destruct z; discriminate]. destruct z'; eexists; reflexivity.
  - destruct axes as [|[u|?] axes]; [destruct z; discriminate| |destruct z; discriminate]. destruct axes as [|? ?]; [|destruct z; discriminate].
    inversion F2 as [|? z' ? l3 [Lz Sz] F3]; subst. inversion F3 as [|? u' ? l4 [Lu Su] F4]; subst. inversion F4; subst.
    destruct u' as [u'|?]; cbn [z_same] in Su; try contradiction. cbn [z_size] in Lu.
    unfold core_new, new_grid4 in *. rewrite (new_grid3_dim_cong 4 x y z x' y' z' a a' Lx Ly Sy Lz Sz Sh).
    unfold check_shape. rewrite Sh, Lu, Su.
    destruct (new_grid3_dim 4 x y z a) as [[]| |]; [|destruct z; discriminate|destruct z; discriminate]. cbn [obind] in *.
    unfold check_shape in H. destruct (nth_error (nd_shape a) 3) as [m|]; [|destruct z; discriminate].
    destruct (c_size (a_cont u) =? m); [|destruct z; discriminate]. cbn [obind] in *. destruct (a_is_circle u); [destruct z; discriminate|].
    destruct z'; eexists; reflexivity.
Qed.
