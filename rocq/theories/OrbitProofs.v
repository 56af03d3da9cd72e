(** Proofs about the orbit tools: turning points, rotations, passes. *)
From Verif Require Import Base BaseProofs MathModel OrbitModel OrbitSpec.
From Coq Require Import Sorted Lqa ZifyBool.
Open Scope Z_scope.

(** ** Lists *)
Lemma map2_length {A B C} (f : A -> B -> C) l m :
  length l = length m -> length (map2 f l m) = length l.
Proof.
  revert m; induction l as [|a l IH]; intros [|b m] H; simpl in *; try discriminate; try reflexivity.
  f_equal. apply IH. lia.
Qed.

Lemma map2_nth {A B C} (f : A -> B -> C) l m da db dc i :
  length l = length m -> (i < length l)%nat ->
  nth i (map2 f l m) dc = f (nth i l da) (nth i m db).
Proof.
  revert m i; induction l as [|a l IH]; intros [|b m] i H Hi; simpl in *; try lia.
  destruct i as [|i]; auto. apply IH; lia.
Qed.

Lemma removelast_length {A} (l : list A) : length (removelast l) = (length l - 1)%nat.
Proof.
  induction l as [|a l IH]; auto. destruct l as [|b l]; auto.
  change (removelast (a :: b :: l)) with (a :: removelast (b :: l)).
  cbn [length] in *. rewrite IH. lia.
Qed.

Lemma removelast_nth {A} (l : list A) i d :
  (i < length l - 1)%nat -> nth i (removelast l) d = nth i l d.
Proof.
  revert i; induction l as [|a l IH]; intros i Hi; [simpl in Hi; lia|].
  destruct l as [|b l]; [simpl in Hi; lia|].
  change (removelast (a :: b :: l)) with (a :: removelast (b :: l)).
  destruct i as [|i]; [reflexivity|].
  cbn [nth]. rewrite IH by (cbn [length] in *; lia). reflexivity.
Qed.

Lemma last_nth {A} (l : list A) d : last l d = nth (length l - 1) l d.
Proof.
  induction l as [|a l IH]; auto. destruct l as [|b l]; auto.
  change (last (a :: b :: l) d) with (last (b :: l) d). rewrite IH.
  cbn [length]. replace (S (S (length l)) - 1)%nat with (S (S (length l) - 1)) by lia.
  reflexivity.
Qed.

Lemma roll1_length {A} (l : list A) : length (roll1 l) = length l.
Proof.
  destruct l as [|a l]; auto. unfold roll1. cbn [length]. rewrite removelast_length.
  cbn [length]. lia.
Qed.

Lemma roll1_nth {A} (l : list A) i d :
  (i < length l)%nat -> nth i (roll1 l) d = nth (before (length l) i) l d.
Proof.
  destruct l as [|a l]; intro Hi; [simpl in Hi; lia|].
  unfold roll1, before. destruct i as [|i].
  - change (last (a :: l) a = nth (length (a :: l) - 1) (a :: l) d).
    rewrite last_nth. apply nth_indep. cbn [length]; lia.
  - change (nth i (removelast (a :: l)) d = nth i (a :: l) d). apply removelast_nth. lia.
Qed.

Lemma before_lt n i : (i < n)%nat -> (before n i < n)%nat.
Proof. destruct i; simpl; lia. Qed.

Lemma where_from_In mask i j :
  In j (where_from i mask) <-> (i <= j)%nat /\ nth (j - i) mask false = true.
Proof.
  revert i; induction mask as [|b m IH]; intro i; simpl.
  - split; [tauto|]. intros [_ H]. destruct (j - i)%nat; discriminate.
  - destruct b; simpl; rewrite ?IH.
    + split.
      * intros [->|[H1 H2]]; [rewrite Nat.sub_diag; auto|].
        split; [lia|]. replace (j - i)%nat with (S (j - S i)) by lia. auto.
      * intros [H1 H2]. destruct (Nat.eq_dec i j) as [->|N]; [now left|]. right.
        split; [lia|]. replace (j - i)%nat with (S (j - S i)) in H2 by lia. auto.
    + split.
      * intros [H1 H2]. split; [lia|]. replace (j - i)%nat with (S (j - S i)) by lia. auto.
      * intros [H1 H2]. destruct (Nat.eq_dec i j) as [->|N].
        { rewrite Nat.sub_diag in H2. discriminate. }
        split; [lia|]. replace (j - i)%nat with (S (j - S i)) in H2 by lia. auto.
Qed.

Lemma where_In mask j : In j (where_ mask) <-> nth j mask false = true.
Proof.
  unfold where_. rewrite where_from_In, Nat.sub_0_r. split; [tauto|]. split; [lia|tauto].
Qed.

Lemma where_from_sorted mask i : StronglySorted lt (where_from i mask).
Proof.
  revert i; induction mask as [|b m IH]; intro i; simpl; [constructor|].
  destruct b; auto. constructor; auto. apply Forall_forall. intros j Hj.
  apply where_from_In in Hj. lia.
Qed.

Lemma where_sorted mask : StronglySorted lt (where_ mask).
Proof. apply where_from_sorted. Qed.

(** ** The turning points *)
Lemma dy_length lat : length (dy_of lat) = length lat.
Proof.
  unfold dy_of. rewrite map2_length; rewrite ?roll1_length; auto.
Qed.

Lemma dy_nth lat i :
  (i < length lat)%nat ->
  nth i (dy_of lat) 0%Q = (at_ lat (before (length lat) i) - at_ lat i)%Q.
Proof.
  intro Hi. unfold dy_of. rewrite (map2_nth _ _ _ 0%Q 0%Q); rewrite ?roll1_length; auto.
  rewrite roll1_nth by auto. reflexivity.
Qed.

Lemma Qltb_iff a b : Qltb a b = true <-> (a < b)%Q.
Proof.
  unfold Qltb. rewrite negb_true_iff. split; intro H.
  - apply Qnot_le_lt. intro C. apply Qle_bool_iff in C. congruence.
  - destruct (Qle_bool b a) eqn:E; auto. apply Qle_bool_iff in E. lra.
Qed.

Lemma mask_length lat f :
  length (map2 f (dy_of lat) (roll1 (dy_of lat)) : list bool) = length lat.
Proof. rewrite map2_length, dy_length; rewrite ?roll1_length; auto. Qed.

Lemma south_mask_nth lat i :
  nth i (south_mask (dy_of lat)) false = true <->
  (i < length lat)%nat /\ after_south lat i.
Proof.
  destruct (Nat.lt_ge_cases i (length lat)) as [Hi|Hi].
  - unfold south_mask. rewrite (map2_nth _ _ _ 0%Q 0%Q); rewrite ?roll1_length, ?dy_length; auto.
    rewrite andb_true_iff, Qltb_iff, Qle_bool_iff.
    rewrite roll1_nth by (rewrite dy_length; auto). rewrite dy_length.
    rewrite !dy_nth by (auto using before_lt).
    unfold after_south, northward. split.
    + intros [H1 H2]. split; auto. split; [lra|]. intro C. lra.
    + intros [_ [H1 H2]]. split; [lra|]. apply Qnot_lt_le in H2. lra.
  - split.
    + intro H. rewrite nth_overflow in H; [discriminate|]. unfold south_mask.
      rewrite mask_length. lia.
    + intros [H _]. lia.
Qed.

Lemma north_mask_nth lat i :
  nth i (north_mask (dy_of lat)) false = true <->
  (i < length lat)%nat /\ after_north lat i.
Proof.
  destruct (Nat.lt_ge_cases i (length lat)) as [Hi|Hi].
  - unfold north_mask. rewrite (map2_nth _ _ _ 0%Q 0%Q); rewrite ?roll1_length, ?dy_length; auto.
    rewrite andb_true_iff, Qltb_iff, Qle_bool_iff.
    rewrite roll1_nth by (rewrite dy_length; auto). rewrite dy_length.
    rewrite !dy_nth by (auto using before_lt).
    unfold after_north, southward. split.
    + intros [H1 H2]. split; auto. split; [lra|]. intro C. lra.
    + intros [_ [H1 H2]]. split; [lra|]. apply Qnot_lt_le in H2. lra.
  - split.
    + intro H. rewrite nth_overflow in H; [discriminate|]. unfold north_mask.
      rewrite mask_length. lia.
    + intros [H _]. lia.
Qed.

Lemma south_turns_In lat i :
  In i (south_turns lat) <-> (i < length lat)%nat /\ after_south lat i.
Proof. unfold south_turns. now rewrite where_In, south_mask_nth. Qed.

Lemma turns_In lat i :
  In i (turns lat) <-> (i < length lat)%nat /\ (after_south lat i \/ after_north lat i).
Proof.
  unfold turns. rewrite where_In.
  assert (Ls : length (south_mask (dy_of lat)) = length lat) by apply mask_length.
  assert (Ln : length (north_mask (dy_of lat)) = length lat) by apply mask_length.
  destruct (Nat.lt_ge_cases i (length lat)) as [Hi|Hi].
  - rewrite (map2_nth _ _ _ false false) by lia.
    rewrite orb_true_iff, south_mask_nth, north_mask_nth. tauto.
  - rewrite nth_overflow by (rewrite map2_length; lia). split; [discriminate|lia].
Qed.

(** Two southern turns are never adjacent. *)
Lemma south_not_adjacent lat i :
  In i (south_turns lat) -> In (S i) (south_turns lat) -> False.
Proof.
  rewrite !south_turns_In. intros [_ [H _]] [_ [_ H2]]. apply H2. exact H.
Qed.

(** ** The condition of [_rearrange_orbit] *)
Lemma list_sum_ge_const l c : (forall x, In x l -> (c <= x)%nat) -> (length l * c <= list_sum l)%nat.
Proof.
  induction l as [|a l IH]; intro H; simpl; auto.
  pose proof (H a (or_introl eq_refl)). assert (forall x, In x l -> (c <= x)%nat) by (intros; apply H; now right).
  specialize (IH H1). fold (list_sum l). lia.
Qed.

Lemma spread_mean a l :
  l <> [] -> (forall x, In x l -> (a + 2 <= x)%nat) -> (a < int_mean (a :: l))%nat.
Proof.
  intros N H. unfold int_mean.
  pose proof (list_sum_ge_const l (a + 2) H) as S1.
  assert (0 < length l)%nat by (destruct l; simpl; [congruence|lia]).
  apply Nat.lt_le_trans with (S a); [lia|].
  apply Nat.div_le_lower_bound; [simpl; lia|].
  change (list_sum (a :: l)) with (a + list_sum l)%nat. simpl length. nia.
Qed.

Lemma south_turns_spread lat a l :
  south_turns lat = a :: l -> forall x, In x l -> (a + 2 <= x)%nat.
Proof.
  intros E x Hx. pose proof (where_sorted (south_mask (dy_of lat))) as W.
  fold (south_turns lat) in W. rewrite E in W. inversion W as [|? ? _ F]; subst.
  rewrite Forall_forall in F. specialize (F x Hx).
  destruct (Nat.eq_dec x (S a)) as [->|]; [|lia]. exfalso.
  apply (south_not_adjacent lat a); rewrite E; [now left|now right].
Qed.

(** ** Rotations *)
Lemma rotate_length {A} k (l : list A) : length (rotate k l) = length l.
Proof.
  unfold rotate. rewrite app_length, skipn_length, firstn_length. lia.
Qed.

Lemma nth_skipn {A} k (l : list A) i d : nth i (skipn k l) d = nth (k + i) l d.
Proof.
  revert l; induction k as [|k IH]; intros [|a l]; simpl; auto. destruct i; auto.
Qed.

Lemma nth_firstn {A} k (l : list A) i d : (i < k)%nat -> nth i (firstn k l) d = nth i l d.
Proof.
  revert l i; induction k as [|k IH]; intros [|a l] [|i] H; simpl; auto; try lia.
  apply IH. lia.
Qed.

Lemma rotate_nth {A} k (l : list A) i d :
  (k <= length l)%nat -> (i < length l)%nat ->
  nth i (rotate k l) d = nth (if (i + k <? length l)%nat then i + k else i + k - length l)%nat l d.
Proof.
  intros Hk Hi. unfold rotate.
  destruct (Nat.ltb_spec (i + k) (length l)).
  - rewrite app_nth1 by (rewrite skipn_length; lia). rewrite nth_skipn. f_equal. lia.
  - rewrite app_nth2 by (rewrite skipn_length; lia). rewrite skipn_length.
    rewrite nth_firstn by lia. f_equal. lia.
Qed.

(** ** Turning points exist unless the latitude is constant *)
Lemma qsum_app l m : (fold_right Qplus 0 (l ++ m) == fold_right Qplus 0 l + fold_right Qplus 0 m)%Q.
Proof. induction l as [|a l IH]; simpl; [ring|rewrite IH; ring]. Qed.

Lemma qsum_roll l : (fold_right Qplus 0 (roll1 l) == fold_right Qplus 0 l)%Q.
Proof.
  destruct l as [|a l]; [reflexivity|]. unfold roll1.
  rewrite (app_removelast_last a (l := a :: l)) at 3 by discriminate.
  rewrite qsum_app. generalize (removelast (a :: l)) (last (a :: l) a). intros m x.
  simpl. ring.
Qed.

Lemma qsum_map2_minus l m :
  length l = length m ->
  (fold_right Qplus 0 (map2 Qminus l m) == fold_right Qplus 0 l - fold_right Qplus 0 m)%Q.
Proof.
  revert m; induction l as [|a l IH]; intros [|b m] H; simpl in *; try discriminate; [ring|].
  rewrite IH by lia. ring.
Qed.

Lemma dy_sum lat : (fold_right Qplus 0 (dy_of lat) == 0)%Q.
Proof.
  unfold dy_of. rewrite qsum_map2_minus, qsum_roll by apply roll1_length. ring.
Qed.

Lemma qsum_neg l : l <> [] -> (forall x, In x l -> x < 0)%Q -> (fold_right Qplus 0 l < 0)%Q.
Proof.
  induction l as [|a l IH]; intros N H; [congruence|]. simpl.
  assert (A : (a < 0)%Q) by (apply H; now left).
  destruct l as [|b l]; [simpl; lra|].
  assert (B : (fold_right Qplus 0 (b :: l) < 0)%Q).
  { apply IH; [discriminate|]. intros x Hx. apply H. now right. }
  lra.
Qed.

Lemma qsum_nonneg_zero l :
  (forall x, In x l -> 0 <= x)%Q -> (fold_right Qplus 0 l == 0)%Q -> forall x, In x l -> (x == 0)%Q.
Proof.
  induction l as [|a l IH]; intros H S x Hx; [inversion Hx|]. simpl in S.
  assert (P : forall m, (forall x, In x m -> 0 <= x)%Q -> (0 <= fold_right Qplus 0 m)%Q).
  { induction m as [|c m IHm]; intro Q0; simpl; [lra|].
    pose proof (Q0 c (or_introl eq_refl)). assert (0 <= fold_right Qplus 0 m)%Q by (apply IHm; intros; apply Q0; now right).
    lra. }
  pose proof (H a (or_introl eq_refl)) as A.
  assert (B : (0 <= fold_right Qplus 0 l)%Q) by (apply P; intros; apply H; now right).
  destruct Hx as [->|Hx]; [lra|]. apply IH; auto; [intros; apply H; now right|lra].
Qed.

Lemma cyclic_closure (n : nat) (P : nat -> Prop) :
  (forall i, (i < n)%nat -> P i -> P (before n i)) ->
  forall i, (i < n)%nat -> P i -> forall j, (j < n)%nat -> P j.
Proof.
  intros H i Hi Pi.
  assert (D : forall k, (k <= i)%nat -> P (i - k)%nat).
  { induction k as [|k IH]; intro Hk; [now rewrite Nat.sub_0_r|].
    specialize (IH ltac:(lia)). apply H in IH; [|lia].
    replace (before n (i - k)) with (i - S k)%nat in IH; auto.
    unfold before. destruct (i - k)%nat eqn:E; lia. }
  assert (P0 : P 0%nat) by (specialize (D i ltac:(lia)); now rewrite Nat.sub_diag in D).
  assert (E : forall k, (k <= n - 1)%nat -> P (n - 1 - k)%nat).
  { induction k as [|k IH]; intro Hk.
    - rewrite Nat.sub_0_r. apply (H 0%nat) in P0; auto. lia.
    - specialize (IH ltac:(lia)). apply H in IH; [|lia].
      replace (before n (n - 1 - k)) with (n - 1 - S k)%nat in IH; auto.
      unfold before. destruct (n - 1 - k)%nat eqn:E; lia. }
  intros j Hj. specialize (E (n - 1 - j)%nat ltac:(lia)).
  now replace (n - 1 - (n - 1 - j))%nat with j in E by lia.
Qed.

Lemma northward_dec lat i : northward lat i \/ ~ northward lat i.
Proof. unfold northward. destruct (Qlt_le_dec (at_ lat (before (length lat) i)) (at_ lat i)); [now left|right]. intro. lra. Qed.
Lemma southward_dec lat i : southward lat i \/ ~ southward lat i.
Proof. unfold southward. destruct (Qlt_le_dec (at_ lat i) (at_ lat (before (length lat) i))); [now left|right]. intro. lra. Qed.

Lemma no_south_turn lat :
  south_turns lat = [] -> forall i, (i < length lat)%nat -> (at_ lat (before (length lat) i) == at_ lat i)%Q.
Proof.
  intros E.
  assert (NN : forall i, (i < length lat)%nat -> ~ northward lat i).
  { intros i Hi C.
    assert (A : forall j, (j < length lat)%nat -> northward lat j).
    { apply (cyclic_closure (length lat) (northward lat)) with (i := i); auto.
      intros k Hk Nk. destruct (northward_dec lat (before (length lat) k)) as [|N]; auto.
      exfalso. assert (X : In k (south_turns lat)) by (apply south_turns_In; repeat split; auto).
      rewrite E in X. inversion X. }
    pose proof (dy_sum lat) as S0.
    assert (S1 : (fold_right Qplus 0 (dy_of lat) < 0)%Q).
    { apply qsum_neg.
      - intro C0. pose proof (dy_length lat) as L. rewrite C0 in L. simpl in L. lia.
      - intros x Hx. apply (In_nth _ _ 0%Q) in Hx. destruct Hx as [k [Hk <-]].
        rewrite dy_length in Hk. rewrite dy_nth by auto. specialize (A k Hk). unfold northward in A. lra. }
    lra. }
  intros i Hi.
  assert (Z0 : (nth i (dy_of lat) 0 == 0)%Q).
  { apply (qsum_nonneg_zero (dy_of lat)).
    - intros x Hx. apply (In_nth _ _ 0%Q) in Hx. destruct Hx as [k [Hk <-]].
      rewrite dy_length in Hk. rewrite dy_nth by auto. specialize (NN k Hk).
      unfold northward in NN. apply Qnot_lt_le in NN. lra.
    - apply dy_sum.
    - apply nth_In. rewrite dy_length. auto. }
  rewrite dy_nth in Z0 by auto. lra.
Qed.

Lemma level_all lat :
  (forall i, (i < length lat)%nat -> (at_ lat (before (length lat) i) == at_ lat i)%Q) ->
  forall i, (i < length lat)%nat -> (at_ lat i == at_ lat 0)%Q.
Proof.
  intros H i. induction i as [|i IH]; intro Hi; [reflexivity|].
  rewrite <- IH by lia. symmetry. apply (H (S i) Hi).
Qed.

(** The same for the turning points of both kinds. *)
Lemma no_turn_no_south lat : turns lat = [] -> south_turns lat = [].
Proof.
  intro E. destruct (south_turns lat) as [|a l] eqn:F; auto. exfalso.
  assert (X : In a (south_turns lat)) by (rewrite F; now left).
  apply south_turns_In in X. assert (Y : In a (turns lat)) by (apply turns_In; tauto).
  rewrite E in Y. inversion Y.
Qed.

(** ** Between two turning points *)
Lemma direction lat i :
  never_level lat -> (i < length lat)%nat -> northward lat i \/ southward lat i.
Proof.
  intros N Hi. specialize (N i Hi). unfold northward, southward.
  destruct (Q_dec (at_ lat (before (length lat) i)) (at_ lat i)) as [[|]|]; auto. tauto.
Qed.

Lemma between_turns lat i j :
  never_level lat -> (i < j <= length lat)%nat ->
  (forall m, (i < m < j)%nat -> ~ In m (turns lat)) -> monotone_on lat i j.
Proof.
  intros N Hij H. unfold monotone_on.
  assert (S0 : forall k, (i + k < j)%nat ->
     (northward lat i -> northward lat (i + k)%nat) /\ (southward lat i -> southward lat (i + k)%nat)).
  { induction k as [|k IH]; intro Hk.
    - now rewrite Nat.add_0_r.
    - destruct IH as [IH1 IH2]; [lia|].
      specialize (H (i + S k)%nat ltac:(lia)). rewrite turns_In in H.
      assert (B : before (length lat) (i + S k) = (i + k)%nat) by (replace (i + S k)%nat with (S (i + k)) by lia; reflexivity).
      unfold after_south, after_north in H. rewrite B in H.
      destruct (direction lat (i + S k) N ltac:(lia)) as [D|D]; split; intro X; auto.
      + exfalso. apply H. split; [lia|]. left. split; auto. specialize (IH2 X).
        unfold northward, southward in *. lra.
      + exfalso. apply H. split; [lia|]. right. split; auto. specialize (IH1 X).
        unfold northward, southward in *. lra. }
  destruct (direction lat i N ltac:(lia)) as [D|D]; [left|right]; intros m Hm;
    specialize (S0 (m - i)%nat ltac:(lia)); replace (i + (m - i))%nat with m in S0 by lia; tauto.
Qed.

(** ** The number of turning points is even *)
Definition xor_all (l : list bool) : bool := fold_right xorb false l.
Lemma xor_app l m : xor_all (l ++ m) = xorb (xor_all l) (xor_all m).
Proof.
  unfold xor_all. induction l as [|a l IH]; simpl; [now destruct (fold_right xorb false m)|].
  rewrite IH. now rewrite xorb_assoc.
Qed.
Lemma xor_roll l : xor_all (roll1 l) = xor_all l.
Proof.
  destruct l as [|a l]; [reflexivity|]. unfold roll1.
  rewrite (app_removelast_last a (l := a :: l)) at 3 by discriminate.
  rewrite xor_app. unfold xor_all. cbn [fold_right].
  rewrite xorb_comm. now rewrite xorb_false_r.
Qed.
Lemma xor_map2 l m :
  length l = length m -> xor_all (map2 xorb l m) = xorb (xor_all l) (xor_all m).
Proof.
  unfold xor_all.
  revert m; induction l as [|a l IH]; intros [|b m] H; simpl in *; try discriminate; auto.
  rewrite IH by lia. destruct a, b, (fold_right xorb false l), (fold_right xorb false m); reflexivity.
Qed.
Lemma where_from_parity mask i : Nat.odd (length (where_from i mask)) = xor_all mask.
Proof.
  unfold xor_all.
  revert i; induction mask as [|b m IH]; intro i; simpl; auto. destruct b; simpl length.
  - rewrite Nat.odd_succ, <- Nat.negb_odd, IH. now destruct (fold_right xorb false m).
  - rewrite IH. now destruct (fold_right xorb false m).
Qed.

Lemma nth_ext_b (l m : list bool) :
  length l = length m -> (forall i, (i < length l)%nat -> nth i l false = nth i m false) -> l = m.
Proof. intros. eapply nth_ext; eauto. Qed.

Lemma turns_even lat : never_level lat -> Nat.even (length (turns lat)) = true.
Proof.
  intro N. set (north := map (fun d => Qltb d 0) (dy_of lat)).
  assert (Ls : length (south_mask (dy_of lat)) = length lat) by apply mask_length.
  assert (Ln : length (north_mask (dy_of lat)) = length lat) by apply mask_length.
  assert (Lb : length north = length lat) by (unfold north; rewrite map_length, dy_length; auto).
  assert (E : map2 orb (south_mask (dy_of lat)) (north_mask (dy_of lat)) = map2 xorb north (roll1 north)).
  { apply nth_ext_b.
    - rewrite !map2_length; rewrite ?roll1_length; lia.
    - intros i Hi. rewrite map2_length in Hi by lia. rewrite Ls in Hi.
      assert (G : forall k, (k < length lat)%nat -> nth k north false = true <-> northward lat k).
      { intros k Hk. unfold north.
        rewrite (nth_indep _ false (Qltb 0 0)) by (rewrite map_length, dy_length; auto).
        rewrite (map_nth (fun d => Qltb d 0)). rewrite Qltb_iff, dy_nth by auto. unfold northward. split; lra. }
      rewrite (map2_nth _ _ _ false false) by lia.
      rewrite (map2_nth _ _ _ false false) by (rewrite ?roll1_length; lia).
      rewrite roll1_nth by lia. rewrite Lb.
      pose proof (south_mask_nth lat i) as M1. pose proof (north_mask_nth lat i) as M2.
      pose proof (G i Hi) as G1. pose proof (before_lt _ _ Hi) as Hb. pose proof (G _ Hb) as G2.
      pose proof (direction lat i N Hi) as D1. pose proof (direction lat _ N Hb) as D2.
      assert (X1 : ~ (northward lat i /\ southward lat i)) by (unfold northward, southward; intros [? ?]; lra).
      assert (X2 : forall k, ~ (northward lat k /\ southward lat k)) by (unfold northward, southward; intros k [? ?]; lra).
      pose proof (X2 (before (length lat) i)) as X3.
      unfold after_south, after_north in *.
      destruct (nth i (south_mask (dy_of lat)) false), (nth i (north_mask (dy_of lat)) false),
        (nth i north false), (nth (before (length lat) i) north false); simpl; auto; exfalso;
        clear - Hi M1 M2 G1 G2 D1 D2 X1 X3; assert (true = true) by reflexivity;
        assert (false <> true) by discriminate; tauto. }
  rewrite <- Nat.negb_odd. unfold turns, where_. rewrite where_from_parity, E.
  rewrite xor_map2 by now rewrite roll1_length. rewrite xor_roll, xorb_nilpotent. reflexivity.
Qed.
