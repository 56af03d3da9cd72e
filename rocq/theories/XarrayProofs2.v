(** Labelled arrays: lemmas. *)
From Coq Require Import Permutation.
From Verif Require Import Base BaseProofs MathModel AxisModel AxisSpec AxisProofs IntAxisModel IntAxisProofs GridModel GridSpec GridProofs
  XarrayModel XarraySpec XarrayProofs XarrayProps.
Open Scope Z_scope.

Lemma deref_seq : forall pre axes, deref (pre ++ axes) (seq (length pre) (length axes)) = Ok axes.
Proof.
  intros pre axes. revert pre. induction axes as [|z axes IH]; intro pre; [reflexivity|]. cbn [length seq deref].
  rewrite nth_error_app2, Nat.sub_diag by lia. cbn [nth_error].
  specialize (IH (pre ++ [z])). rewrite app_length, <- app_assoc in IH. cbn [length app] in IH. replace (length pre + 1)%nat with (S (length pre)) in IH by lia. rewrite IH. reflexivity.
Qed.
Lemma same_field_refl : forall axes a, Forall z_ok axes -> same_field axes a axes a.
Proof. intros axes a K. split; [reflexivity|]. intros v i j H H'. rewrite (located_inj axes i j v K H H'). reflexivity. Qed.
(** What [finish] builds. *)
Lemma finish_spec : forall dim inc axes a names time x, Forall z_reachable axes -> length (nd_shape a) = length axes -> finish dim inc axes a names time = Ok x ->
  xg_dims x = names /\ xg_time x = time /\ exists c, view (xg_heap x) (xg_grid x) = Ok c /\
    same_field axes a (fst (parts c)) (snd (parts c)) /\ fits axes a /\ length axes = dim /\ (inc = true -> Forall ascending_values (fst (parts c))).
Proof.
  intros dim inc axes a names time x R L F. unfold finish in F.
  assert (K : Forall z_ok axes) by (rewrite Forall_forall in *; intros z Hz; apply z_reachable_ok; auto).
  pose proof (deref_seq [] axes) as D. cbn [length app] in D.
  assert (N0 : forall c, core_new dim axes a = Ok c -> py_grid dim None axes (seq 0 (length axes)) a = (axes, Ok (PyGrid dim (seq 0 (length axes)) a)) /\ view axes (PyGrid dim (seq 0 (length axes)) a) = Ok c).
  { intros c E. assert (V : view axes (PyGrid dim (seq 0 (length axes)) a) = Ok c) by (unfold view; cbn [pg_axes pg_dim pg_array]; rewrite D; exact E). split; [|exact V].
    unfold py_grid. cbn [obind]. rewrite V. reflexivity. }
  assert (Dim : forall c, core_new dim axes a = Ok c -> length axes = dim).
  { intros c E. unfold core_new in E. destruct dim as [|[|[|[|[|dim]]]]]; try discriminate.
    - destruct axes as [|[?|] [|[?|] [|]]]; try discriminate; reflexivity.
    - destruct axes as [|[?|] [|[?|] [|? [|]]]]; try discriminate; reflexivity.
    - destruct axes as [|[?|] [|[?|] [|? [|[?|] [|]]]]]; try discriminate; reflexivity. }
  destruct inc; cbn [flag] in F.
  - destruct (py_grid dim (Some "inplace"%string) axes (seq 0 (length axes)) a) as [h r] eqn:P. destruct r as [g| |]; cbn [obind] in F; try discriminate. injection F as <-.
    cbn [xg_dims xg_time xg_heap xg_grid]. split; [reflexivity|]. split; [reflexivity|].
    assert (E0 : exists c0, core_new dim axes a = Ok c0).
    { destruct (increase_spec true (seq 0 (length axes)) axes 0 [] a axes) as (h' & refs' & a' & flags & axes' & Ei & M & Lf & T & As & Fl & Sh & _ & _ & _).
      { apply deref_map. exact D. } { exact K. } { discriminate. } { intros _. apply seq_NoDup. } { rewrite seq_length. exact L. }
      cbn [rev app] in Ei. unfold py_grid in P. cbn [String.eqb Ascii.eqb Bool.eqb] in P. rewrite Ei in P. cbn [obind] in P.
      destruct (view h' (PyGrid dim refs' a')) as [c1| |] eqn:V; cbn [obind] in P; try discriminate.
      unfold view in V. cbn [pg_axes pg_dim pg_array] in V. apply deref_map in M. rewrite M in V. cbn [obind] in V.
      destruct (turned_z_same flags axes axes' Lf T) as [Sm K'].
      apply (core_new_cong dim axes' axes a' a c1); [|symmetry; exact Sh|exact V].
      clear -Sm. induction Sm as [|z z' l l' [S1 S2] Sm IH]; constructor; [|exact IH]. split; [symmetry; exact S1|]. destruct z, z'; cbn [z_same] in *; auto. }
    destruct E0 as [c0 E0]. destruct (N0 c0 E0) as [P0 V0].
    destruct (C103_inplace dim axes (seq 0 (length axes)) a _ c0 R (seq_NoDup _ _) P0 V0) as (h1 & g1 & c & P1 & V1 & A & SF & _).
    rewrite P in P1. assert (h1 = h) by (injection P1; auto). assert (g1 = g) by (injection P1; auto). subst h1 g1.
    destruct (core_new_parts _ _ _ _ E0) as [Pa Fi]. rewrite Pa in SF. cbn [fst snd] in SF.
    exists c. split; [exact V1|]. split; [exact SF|]. split; [exact Fi|]. split; [exact (Dim c0 E0)|]. intros _. exact A.
  - unfold py_grid in F. cbn [obind] in F. destruct (view axes (PyGrid dim (seq 0 (length axes)) a)) as [c| |] eqn:V; cbn [obind] in F; try discriminate. injection F as <-.
    cbn [xg_dims xg_time xg_heap xg_grid]. split; [reflexivity|]. split; [reflexivity|]. exists c. split; [exact V|].
    unfold view in V. cbn [pg_axes pg_dim pg_array] in V. rewrite D in V. cbn [obind] in V. destruct (core_new_parts _ _ _ _ V) as [Pa Fi]. rewrite Pa. cbn [fst snd].
    split; [apply same_field_refl; exact K|]. split; [exact Fi|]. split; [exact (Dim c V)|]. discriminate.
Qed.

(** ** Transposition *)
Lemma mem_in : forall s l, mem s l = true <-> In s l.
Proof.
  intros s l. unfold mem. rewrite existsb_exists. split.
  - intros (x & H & E). apply String.eqb_eq in E. subst. exact H.
  - intro H. exists s. split; [exact H|apply String.eqb_refl].
Qed.
Lemma distinct_nodup : forall l, distinct l = true -> NoDup l.
Proof.
  induction l as [|a l IH]; cbn [distinct]; intro H; [constructor|]. apply andb_true_iff in H as [H H']. constructor; [|auto].
  intro X. apply mem_in in X. rewrite X in H. discriminate.
Qed.
Lemma position_nth : forall s l, In s l -> nth_error l (position s l) = Some s.
Proof.
  induction l as [|a l IH]; intro H; [destruct H|]. cbn [position]. destruct (String.eqb_spec s a) as [->|N]; [reflexivity|]. cbn [nth_error]. apply IH. destruct H; [congruence|exact H].
Qed.
Lemma position_map : forall (lab : string -> Z) s l, In s l -> nth (position s l) (map lab l) 0 = lab s.
Proof.
  intros lab s l H. apply position_nth in H. apply nth_error_nth. apply map_nth_error. exact H.
Qed.
Lemma transpose_spec : forall da names a, da_ok da -> transpose da names = Ok a ->
  Permutation names (da_dims da) /\ NoDup names /\ length (nd_shape a) = length names /\ (forall lab, nd_cell a (map lab names) = field da lab) /\
  (forall n, In n names -> nth (position n names) (nd_shape a) 0 = nth (position n (da_dims da)) (nd_shape (da_values da)) 0).
Proof.
  intros da names a (ND & Ls & _) T. unfold transpose in T.
  destruct (Nat.eqb_spec (length names) (length (da_dims da))) as [L|]; [|discriminate]. cbn [andb] in T.
  destruct (distinct names) eqn:D; [|discriminate]. cbn [andb] in T. destruct (forallb _ names) eqn:F; [|discriminate]. injection T as <-. cbn [nd_shape nd_cell].
  apply distinct_nodup in D.
  assert (Inc : incl names (da_dims da)) by (intros n Hn; apply mem_in; exact (proj1 (forallb_forall _ _) F n Hn)).
  assert (P : Permutation names (da_dims da)) by (apply NoDup_Permutation_bis; auto; lia).
  split; [exact P|]. split; [exact D|]. split; [rewrite map_length; reflexivity|]. split.
  - intro lab. unfold field. f_equal. apply map_ext_in. intros d Hd. apply position_map. apply (Permutation_in _ (Permutation_sym P)). exact Hd.
  - intros n Hn. apply position_map. exact Hn.
Qed.
(** Every index is a labelling, when the names are distinct. *)
Lemma labelling : forall (names : list string) (i : list Z), NoDup names -> length i = length names -> exists lab, map lab names = i.
Proof.
  intros names i ND L. exists (fun n => nth (position n names) i 0). revert i L. induction names as [|n names IH]; intros [|k i] L; cbn [length] in L; try discriminate; [reflexivity|].
  cbn [map position]. rewrite String.eqb_refl. cbn [nth]. f_equal. inversion ND as [|? ? N ND']; subst. transitivity (map (fun n => nth (position n names) i 0) names); [|apply IH; [exact ND'|lia]]. apply map_ext_in. intros m Hm.
  destruct (String.eqb_spec m n) as [->|]; [contradiction|]. reflexivity.
Qed.
Lemma represents_intro : forall da names built axes a b, NoDup names -> length built = length names -> (forall lab, nd_cell b (map lab names) = field da lab) ->
  same_field built b axes a -> represents da names built axes a.
Proof.
  intros da names built axes a b ND L C [S V]. split.
  - intro v. rewrite <- S. split; [intros [lab H]; eauto|]. intros [i H]. destruct (located_length _ _ _ H) as [Li _]. destruct (labelling names i ND ltac:(lia)) as [lab <-]. eauto.
  - intros lab v i H H'. rewrite <- C. symmetry. eapply V; eassumption.
Qed.

Lemma make_axis_spec : forall c circle a, make_axis c circle = Ok a -> reachable a /\ axis_of_coord c circle (ZReal a).
Proof.
  intros c circle a H. unfold make_axis, axis_of_coord in *. destruct (co_dims c) as [|? [|]]; try discriminate. destruct (co_values c) as [v|v|v]; try discriminate.
  split; [apply (reach_values v default_epsilon circle a); [unfold default_epsilon; lra|exact H]|]. exists a. split; [exact H|reflexivity].
Qed.
Lemma make_temporal_spec : forall c i, make_temporal c = Ok i -> i_reachable i /\ (forall circle, axis_of_coord c circle (ZTime i)).
Proof.
  intros c i H. unfold make_temporal, axis_of_coord in *. destruct (co_dims c) as [|? [|]]; try discriminate. destruct (co_values c) as [v|v|v]; try discriminate; (split; [exact (i_reach_values v i H)|intro; eauto]).
Qed.

(** ** Arrays that agree *)
Lemma mirror_length : forall k s i, length (mirror k s i) = length i.
Proof. intros k s. revert k. induction s as [|n s IH]; intros [|k] [|j i]; cbn [mirror length]; auto. Qed.
Lemma flip_agree : forall a a' k b, agree a a' -> numpy_flip a k = Ok b -> exists b', numpy_flip a' k = Ok b' /\ agree b b'.
Proof.
  intros a a' k b [S C] H. unfold numpy_flip in *. rewrite <- S. destruct (Nat.ltb k (length (nd_shape a))); [|discriminate]. injection H as <-. eexists. split; [reflexivity|].
  split; [reflexivity|]. cbn [nd_shape nd_cell]. intros i L. apply C. rewrite mirror_length. exact L.
Qed.
Lemma increase_agree : forall inplace todo h idx done a a' h' refs b, agree a a' -> increase inplace h idx todo done a = (h', Ok (refs, b)) ->
  exists b', increase inplace h idx todo done a' = (h', Ok (refs, b')) /\ agree b b'.
Proof.
  intros inplace. induction todo as [|r todo IH]; intros h idx done a a' h' refs b A H; cbn [increase] in *.
  - assert (h' = h) by (injection H; auto). assert (refs = rev done) by (injection H; auto). assert (b = a) by (injection H; auto). subst. exists a'. auto.
  - destruct (nth_error h r) as [z|]; [|discriminate]. destruct (z_is_ascending z); [eapply IH; eassumption|]. destruct (z_py_flip inplace z) as [z'| |]; try discriminate.
    destruct (numpy_flip a idx) as [e| |] eqn:E; try discriminate. destruct (flip_agree a a' idx e A E) as (e' & -> & A'). eapply IH; eassumption.
Qed.
Lemma core_agree : forall dim axes a a' c, agree a a' -> core_new dim axes a = Ok c -> exists c', core_new dim axes a' = Ok c' /\ fst (parts c') = fst (parts c) /\ agree (snd (parts c)) (snd (parts c')).
Proof.
  intros dim axes a a' c A H. destruct (core_new_cong dim axes axes a a' c) as [c' H'].
  { clear. induction axes as [|z axes IH]; constructor; [|exact IH]. split; [reflexivity|]. destruct z; cbn [z_same]; auto. } { symmetry. apply A. } { exact H. }
  exists c'. split; [exact H'|]. destruct (core_new_parts _ _ _ _ H) as [-> _]. destruct (core_new_parts _ _ _ _ H') as [-> _]. auto.
Qed.
Lemma finish_agree : forall dim inc axes a a' names time x, agree a a' -> finish dim inc axes a names time = Ok x ->
  exists x', finish dim inc axes a' names time = Ok x' /\ same_grid x x'.
Proof.
  intros dim inc axes a a' names time x A H. unfold finish, py_grid in *.
  assert (Vw : forall h refs b b' c, agree b b' -> view h (PyGrid dim refs b) = Ok c -> exists c', view h (PyGrid dim refs b') = Ok c' /\ fst (parts c') = fst (parts c) /\ agree (snd (parts c)) (snd (parts c'))).
  { intros h refs b b' c B V. unfold view in *. cbn [pg_axes pg_dim pg_array] in *. destruct (deref h refs) as [l| |]; cbn [obind] in *; try discriminate. eapply core_agree; eassumption. }
  destruct inc; cbn [flag] in *.
  - change (String.eqb "inplace" "inplace") with true in *. destruct (increase true axes 0 (seq 0 (length axes)) [] a) as [h o] eqn:I. destruct o as [[refs b]| |]; cbn [obind] in H; try discriminate.
    destruct (increase_agree true _ _ _ _ a a' h refs b A I) as (b' & -> & B). cbn [obind].
    destruct (view h (PyGrid dim refs b)) as [c| |] eqn:V; cbn [obind] in H; try discriminate. injection H as <-. destruct (Vw _ _ _ _ _ B V) as (c' & V' & P & G). rewrite V'. cbn [obind].
    eexists. split; [reflexivity|]. split; [reflexivity|]. split; [reflexivity|]. exists c, c'. auto.
  - cbn [obind] in *. destruct (view axes (PyGrid dim (seq 0 (length axes)) a)) as [c| |] eqn:V; cbn [obind] in H; try discriminate. injection H as <-. destruct (Vw _ _ _ _ _ A V) as (c' & V' & P & G). rewrite V'. cbn [obind].
    eexists. split; [reflexivity|]. split; [reflexivity|]. split; [reflexivity|]. exists c, c'. auto.
Qed.
Lemma mem_perm : forall l l' n, Permutation l l' -> mem n l = mem n l'.
Proof.
  intros l l' n P. destruct (mem n l) eqn:A, (mem n l') eqn:B; try reflexivity; [apply mem_in in A; apply (Permutation_in _ P) in A|apply mem_in in B; apply (Permutation_in _ (Permutation_sym P)) in B]; [apply mem_in in A|apply mem_in in B]; congruence.
Qed.
Lemma coord_same : forall da da' n, same_data da da' -> coord_of da' n = coord_of da n.
Proof.
  intros da da' n (C & P & S & _). unfold coord_of. rewrite <- C. destruct (find _ (da_coords da)); [reflexivity|]. rewrite <- (mem_perm _ _ n P). destruct (mem n (da_dims da)) eqn:M; [|reflexivity].
  apply mem_in in M. rewrite (S n M). reflexivity.
Qed.
Lemma transpose_same : forall da da' names a, same_data da da' -> da_ok da -> da_ok da' -> transpose da names = Ok a -> exists a', transpose da' names = Ok a' /\ agree a a'.
Proof.
  intros da da' names a Sd OK OK' T. destruct (transpose_spec da names a OK T) as (P & ND & L & Ce & Sh). pose proof Sd as (C & Pd & S & F).
  assert (T' : exists a', transpose da' names = Ok a').
  { unfold transpose in *. rewrite <- (Permutation_length Pd). destruct (Nat.eqb (length names) (length (da_dims da))); [|discriminate]. destruct (distinct names); [|discriminate]. cbn [andb] in *.
    destruct (forallb (fun n => mem n (da_dims da)) names) eqn:A; [|discriminate]. assert (A' : forallb (fun n => mem n (da_dims da')) names = true).
    { apply forallb_forall. intros n Hn. rewrite <- (mem_perm _ _ n Pd). exact (proj1 (forallb_forall _ _) A n Hn). }
    rewrite A'. eexists. reflexivity. }
  destruct T' as [a' T']. destruct (transpose_spec da' names a' OK' T') as (P' & _ & L' & Ce' & Sh'). exists a'. split; [exact T'|]. split.
  - apply (nth_ext _ _ 0 0); [lia|]. intros n Hn. rewrite L in Hn. destruct (nth_error names n) as [m|] eqn:E; [|apply nth_error_None in E; lia].
    assert (Hm : In m names) by (eapply nth_error_In; exact E).
    assert (Pn : position m names = n).
    { pose proof (position_nth m names Hm) as Q. apply (proj1 (NoDup_nth_error names) ND); [apply nth_error_Some; rewrite Q; discriminate|congruence]. }
    rewrite <- Pn, (Sh m Hm), (Sh' m Hm). apply S. apply (Permutation_in _ P). exact Hm.
  - intros i Li. destruct (labelling names i ND ltac:(lia)) as [lab <-]. rewrite Ce, Ce'. apply F.
Qed.
