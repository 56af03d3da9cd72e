(** Lemmas about the streaming histogram. *)
From Verif Require Import Base BaseProofs HistModel HistSpec.
From Coq Require Import Permutation.
Open Scope Q_scope.

Definition bins_ok (l : list bin) : Prop :=
  ascending (map bvalue l) /\ Forall (fun b => 0 < bweight b) l.
Definition all_moderate (l : list bin) : Prop := Forall (fun b => moderate (bvalue b)) l.
Definition within (lo hi : Q) (l : list bin) : Prop := Forall (fun b => lo <= bvalue b <= hi) l.

Lemma ascending_tail : forall a l, ascending (a :: l) -> ascending l.
Proof. intros a [|b l] H; [exact I|apply H]. Qed.
Lemma ascending_head : forall l a x, ascending (a :: l) -> In x l -> a <= x.
Proof.
  induction l as [|b l IH]; intros a x H Hin; [destruct Hin|]. destruct H as [H1 H2].
  destruct Hin as [<-|Hin]; [exact H1|]. specialize (IH b x H2 Hin). lra.
Qed.
Lemma ascending_cons : forall a l, ascending l -> (forall x, In x l -> a <= x) -> ascending (a :: l).
Proof. intros a [|b l] H G; [exact I|]. split; [apply G; left; reflexivity|exact H]. Qed.

(** ** Insertion *)
Lemma insert_S : forall n b a l, insert_at (S n) b (a :: l) = a :: insert_at n b l.
Proof. reflexivity. Qed.
Lemma insert_perm : forall n b l, Permutation (insert_at n b l) (b :: l).
Proof.
  intros n b l. unfold insert_at. rewrite <- (firstn_skipn n l) at 3. symmetry. apply Permutation_middle.
Qed.
Lemma ascending_insert : forall l v w, ascending (map bvalue l) ->
  ascending (map bvalue (insert_at (lower_bound v l) (v, w) l)).
Proof.
  induction l as [|b l IH]; intros v w H; [exact I|]. cbn [lower_bound].
  destruct (Qleb_spec (bvalue b) v) as [L|L].
  - rewrite insert_S. cbn [map]. apply ascending_cons; [apply IH; eapply ascending_tail; exact H|].
    intros x Hx. apply in_map_iff in Hx. destruct Hx as (c & <- & Hc).
    apply (Permutation_in _ (insert_perm _ _ _)) in Hc. destruct Hc as [<-|Hc]; [exact L|].
    eapply ascending_head; [exact H|]. apply in_map; exact Hc.
  - unfold insert_at. cbn [firstn skipn app map]. apply ascending_cons; [exact H|].
    intros x [<-|Hx]; [cbn; lra|]. pose proof (ascending_head _ _ _ H Hx). cbn. lra.
Qed.
Lemma lower_bound_all : forall l v, (forall b, In b l -> bvalue b <= v) -> lower_bound v l = length l.
Proof.
  induction l as [|b l IH]; intros v H; [reflexivity|]. cbn [lower_bound length].
  destruct (Qleb_spec (bvalue b) v) as [L|L]; [f_equal; apply IH; intros; apply H; right; assumption|].
  specialize (H b (or_introl eq_refl)). lra.
Qed.
Lemma lower_bound_nth : forall l v b, nth_error l (lower_bound v l) = Some b -> v < bvalue b.
Proof.
  induction l as [|c l IH]; intros v b H; cbn [lower_bound] in H; [discriminate|].
  destruct (Qleb_spec (bvalue c) v) as [L|L]; cbn in H; [apply IH in H; exact H|]. assert (b = c) by congruence. subst. exact L.
Qed.
Lemma lower_bound_le : forall l v, (lower_bound v l <= length l)%nat.
Proof. induction l as [|b l IH]; intros v; cbn; [lia|]. destruct (Qle_bool (bvalue b) v); [specialize (IH v); lia|lia]. Qed.
Lemma ascending_last : forall l d b, ascending (map bvalue l) -> In b l -> bvalue b <= bvalue (last l d).
Proof.
  induction l as [|a l IH]; intros d b H Hin; [destruct Hin|]. destruct l as [|c l].
  - destruct Hin as [<-|[]]. cbn. lra.
  - change (last (a :: c :: l) d) with (last (c :: l) d). destruct Hin as [<-|Hin].
    + specialize (IH d c (ascending_tail _ _ H) (or_introl eq_refl)). cbn in H. destruct H as [H _]. lra.
    + apply IH; [eapply ascending_tail; exact H|exact Hin].
Qed.
Lemma last_in : forall (l : list bin) d, l <> [] -> In (last l d) l.
Proof.
  induction l as [|a l IH]; intros d H; [congruence|]. destruct l as [|c l]; [left; reflexivity|].
  right. apply IH. discriminate.
Qed.

Lemma update_bins_spec : forall l v w, bins_ok l -> 0 < w ->
  exists l', update_bins l v w = Ok l' /\ bins_ok l' /\ Permutation l' ((v, w) :: l).
Proof.
  intros l v w [A P] Hw. unfold update_bins. destruct l as [|f t] eqn:El.
  - exists [(v, w)]. split; [reflexivity|]. split; [split; [exact I|constructor; [exact Hw|constructor]]|apply Permutation_refl].
  - rewrite <- El in *. assert (Hne : l <> []) by (rewrite El; discriminate).
    assert (Pw : forall l', Permutation l' ((v, w) :: l) -> Forall (fun b => 0 < bweight b) l').
    { intros l' Pm. eapply Permutation_Forall; [symmetry; exact Pm|]. constructor; [exact Hw|exact P]. }
    destruct (Qleb_spec v (bvalue f)) as [L|L].
    + exists ((v, w) :: l). split; [reflexivity|]. split; [split; [|apply Pw; apply Permutation_refl]|apply Permutation_refl].
      cbn [map]. apply ascending_cons; [exact A|]. intros x Hx. rewrite El in A, Hx. destruct Hx as [<-|Hx]; [exact L|].
      pose proof (ascending_head _ _ _ A Hx). cbn. lra.
    + destruct (Qleb_spec (bvalue (last l f)) v) as [M|M].
      * exists (l ++ [(v, w)]). split; [reflexivity|].
        assert (Pm : Permutation (l ++ [(v, w)]) ((v, w) :: l)) by (symmetry; apply Permutation_cons_append).
        split; [split; [|apply Pw; exact Pm]|exact Pm].
        pose proof (ascending_insert l v w A) as G. rewrite (lower_bound_all l v) in G.
        -- unfold insert_at in G. rewrite firstn_all, skipn_all in G. exact G.
        -- intros b Hb. pose proof (ascending_last l f b A Hb). lra.
      * destruct (nth_error l (lower_bound v l)) as [b|] eqn:E.
        -- pose proof (lower_bound_nth _ _ _ E) as Lt. destruct (Qeqb_spec (bvalue b) v) as [Eq|Ne]; [lra|].
           exists (insert_at (lower_bound v l) (v, w) l). split; [reflexivity|].
           split; [split; [apply ascending_insert; exact A|apply Pw; apply insert_perm]|apply insert_perm].
        -- exfalso. apply nth_error_None in E. pose proof (lower_bound_le l v).
           assert (Full : forall l, lower_bound v l = length l -> forall b, In b l -> bvalue b <= v).
           { clear. induction l as [|c l IH]; intros H b Hb; [destruct Hb|]. cbn [lower_bound length] in H.
             destruct (Qleb_spec (bvalue c) v) as [X|X]; [|discriminate]. destruct Hb as [<-|Hb]; [exact X|]. apply IH; [lia|exact Hb]. }
           pose proof (Full l ltac:(lia) (last l f) (last_in l f Hne)). lra.
Qed.

(** ** Merging neighbours *)
Lemma combine_value : forall a b, 0 < bweight a -> 0 < bweight b -> bvalue a <= bvalue b ->
  bvalue a <= bvalue (combine_bins a b) <= bvalue b.
Proof.
  intros a b Wa Wb L. unfold combine_bins; cbn [bvalue fst]. change (fst a) with (bvalue a); change (fst b) with (bvalue b).
  assert (S : 0 < bweight a + bweight b) by lra. split.
  - apply Qle_shift_div_l; [exact S|]. nra.
  - apply Qle_shift_div_r; [exact S|]. nra.
Qed.
Lemma combine_weight : forall a b, bweight (combine_bins a b) = bweight a + bweight b.
Proof. reflexivity. Qed.
Lemma combine_mass : forall a b, 0 < bweight a -> 0 < bweight b ->
  bvalue (combine_bins a b) * bweight (combine_bins a b) == bvalue a * bweight a + bvalue b * bweight b.
Proof. intros a b Wa Wb. unfold combine_bins, bvalue, bweight in *; cbn [fst snd]. field. lra. Qed.

Definition wsum (l : list bin) : Q := sum_over (fun _ => 1) l.
Definition msum (l : list bin) : Q := sum_over (fun v => v) l.
Lemma wsum_cons : forall b l, wsum (b :: l) == bweight b + wsum l.
Proof. intros [v w] l. unfold wsum. cbn [sum_over bweight snd]. ring. Qed.
Lemma msum_cons : forall b l, msum (b :: l) == bvalue b * bweight b + msum l.
Proof. intros [v w] l. unfold msum. cbn [sum_over bweight bvalue fst snd]. ring. Qed.
Lemma sum_over_app : forall f l m, sum_over f (l ++ m) == sum_over f l + sum_over f m.
Proof. induction l as [|[v w] l IH]; intros m; cbn [sum_over app]; [ring|]. rewrite IH. ring. Qed.
Lemma sum_over_perm : forall f l m, Permutation l m -> sum_over f l == sum_over f m.
Proof.
  induction 1 as [|[v w] l m _ IH|[v w] [v' w'] l|l m n _ IH1 _ IH2]; cbn [sum_over];
    [reflexivity|rewrite IH; reflexivity|ring|rewrite IH1; exact IH2].
Qed.

Lemma merge_at_spec : forall l ix, bins_ok l -> (S ix < length l)%nat ->
  exists l', merge_at ix l = Some l' /\ bins_ok l' /\ S (length l') = length l /\
    wsum l' == wsum l /\ msum l' == msum l /\
    (forall lo hi, within lo hi l -> within lo hi l') /\
    (forall x, In x (map bvalue l') -> bvalue (hd (0, 0) l) <= x).
Proof.
  induction l as [|a l IH]; intros ix [A P] H; [cbn in H; lia|]. destruct ix as [|ix].
  - destruct l as [|b t]; [cbn in H; lia|]. exists (combine_bins a b :: t). split; [reflexivity|].
    inversion P as [|? ? Wa P' X]; subst. inversion P' as [|? ? Wb P'' X]; subst. cbn [map] in A. destruct A as [L A].
    pose proof (combine_value a b Wa Wb L) as CV. split; [|split; [reflexivity|]].
    { split; [|constructor; [rewrite combine_weight; lra|exact P'']]. cbn [map]. apply ascending_cons; [eapply ascending_tail; exact A|].
      intros x Hx. pose proof (ascending_head _ _ _ A Hx). lra. }
    split; [rewrite !wsum_cons, combine_weight; ring|]. split; [rewrite !msum_cons, combine_mass by assumption; ring|]. split.
    { intros lo hi W. inversion W as [|? ? Ha W' X]; subst. inversion W' as [|? ? Hb W'' X]; subst.
      constructor; [lra|exact W'']. }
    intros x [<-|Hx]; cbn [hd]; [lra|]. pose proof (ascending_head _ _ _ A Hx). lra.
  - inversion P as [|? ? Wa P' X]; subst. destruct (IH ix) as (l' & E & [A' B'] & L & W & M & Wi & Hd).
    { split; [eapply ascending_tail; exact A|exact P']. } { cbn in H; lia. }
    exists (a :: l'). cbn [merge_at]. rewrite E. split; [reflexivity|].
    destruct l as [|c l]; [cbn in H; lia|]. cbn [hd] in Hd. cbn [map] in A. destruct A as [L1 A].
    split; [split; [|constructor; assumption]|split; [cbn in *; lia|]].
    { cbn [map]. apply ascending_cons; [exact A'|]. intros x Hx. specialize (Hd x Hx). lra. }
    split; [rewrite !(wsum_cons a), W; reflexivity|]. split; [rewrite !(msum_cons a), M; reflexivity|]. split.
    { intros lo hi Wx. inversion Wx; subst. constructor; [assumption|]. apply Wi. assumption. }
    intros x [<-|Hx]; cbn [hd]; [lra|]. specialize (Hd x Hx). lra.
Qed.

(** ** Choice of the neighbours *)
Definition small_log (lg : Q -> Q) : Prop := forall w, Qabs (lg w) <= 1000.
Lemma Qabs_bounds : forall x y, Qabs x <= y -> - y <= x <= y.
Proof. intros x y H. apply Qabs_Qle_condition. exact H. Qed.
Definition dmax : Q := dbl_max.
Lemma dmax_pos : 0 < dbl_max. Proof. unfold dbl_max. apply (Qlt_alt 0 (inject_Z ((2 ^ 53 - 1) * 2 ^ 971))). vm_compute. reflexivity. Qed.
Lemma difference_small : forall lg wd a b, small_log lg -> moderate (bvalue a) -> moderate (bvalue b) ->
  difference lg wd a b < dbl_max.
Proof.
  intros lg wd a b L Ma Mb. unfold moderate in *. pose proof dmax_pos as P. revert Ma Mb P. generalize dbl_max. intros D Ma Mb P.
  apply Qabs_bounds in Ma. apply Qabs_bounds in Mb. unfold difference. destruct wd; [|lra].
  specialize (L (Qmin (bweight a) (bweight b))). apply Qabs_bounds in L. set (g := lg _) in *. nra.
Qed.
Lemma scan_some : forall lg wd l ix d i, exists j, scan lg wd l ix d (Some i) = Some j /\ (j = i \/ ix <= j /\ S j < ix + length l)%nat.
Proof.
  intros lg wd. induction l as [|b l IH]; intros ix d i; [exists i; split; [reflexivity|left; reflexivity]|].
  destruct l as [|c l]; [exists i; split; [reflexivity|left; reflexivity]|]. cbn [scan]. fold (scan lg wd).
  destruct (Qltb (difference lg wd c b) d).
  - destruct (IH (S ix) (difference lg wd c b) ix) as (j & E & H). exists j. split; [exact E|]. cbn [length] in *. right. destruct H as [->|H]; lia.
  - destruct (IH (S ix) d i) as (j & E & H). exists j. split; [exact E|]. cbn [length] in *. destruct H as [->|H]; [left; reflexivity|right; lia].
Qed.
Lemma min_index_some : forall lg wd l, small_log lg -> all_moderate l -> (2 <= length l)%nat ->
  exists ix, min_index lg wd l = Some ix /\ (S ix < length l)%nat.
Proof.
  intros lg wd l L M H. destruct l as [|a [|b l]]; cbn [length] in H; try lia. unfold min_index. cbn [scan]. fold (scan lg wd).
  inversion M as [|? ? Ma M' X]; subst. inversion M' as [|? ? Mb M'' X]; subst.
  pose proof (difference_small lg wd b a L Mb Ma) as D. apply Qltb_true in D. rewrite D.
  destruct (scan_some lg wd (b :: l) 1 (difference lg wd b a) 0) as (j & E & Hj). exists j. split; [exact E|]. cbn [length] in *. lia.
Qed.

Lemma moderate_within : forall l, all_moderate l <-> within (- (dbl_max * (1 # 4096))) (dbl_max * (1 # 4096)) l.
Proof.
  intro l. unfold all_moderate, within, moderate. split; intro H; (eapply Forall_impl; [|exact H]); intros b Hb; apply Qabs_Qle_condition; exact Hb.
Qed.

(** ** Compression *)
Lemma trim_loop_spec : forall lg wd n fuel l, small_log lg -> (1 <= n)%Z -> bins_ok l -> all_moderate l ->
  (length l <= fuel)%nat ->
  exists l', trim_loop lg fuel wd n l = Ok l' /\ bins_ok l' /\ all_moderate l' /\ (zlen l' <= n)%Z /\
    wsum l' == wsum l /\ msum l' == msum l /\ (forall lo hi, within lo hi l -> within lo hi l') /\
    ((zlen l <= n)%Z -> l' = l) /\ (l <> [] -> l' <> []).
Proof.
  intros lg wd n. induction fuel as [|fuel IH]; intros l L Hn B M F.
  - destruct l; [|cbn in F; lia]. exists []. cbn [trim_loop]. replace (n <? zlen [])%Z with false by (unfold zlen; cbn; lia).
    repeat split; try assumption; try reflexivity; try (unfold zlen; cbn; lia); auto.
  - cbn [trim_loop]. destruct (Z.ltb_spec n (zlen l)) as [G|G].
    + destruct (min_index_some lg wd l L M) as (ix & E & H); [unfold zlen in G; lia|]. rewrite E.
      destruct (merge_at_spec l ix B H) as (l' & E' & B' & Len & W & Ms & Wi & _). rewrite E'.
      assert (M' : all_moderate l') by (apply moderate_within; apply Wi; apply moderate_within; exact M).
      destruct (IH l' L Hn B' M' ltac:(lia)) as (l2 & E2 & B2 & M2 & Le & W2 & Ms2 & Wi2 & _ & Ne).
      exists l2. split; [exact E2|]. split; [exact B2|]. split; [exact M2|]. split; [exact Le|].
      split; [rewrite W2; exact W|]. split; [rewrite Ms2; exact Ms|]. split; [intros lo hi Hw; apply Wi2; apply Wi; exact Hw|].
      split; [unfold zlen in *; lia|]. intros _. apply Ne. intro C. subst l'. cbn in Len. unfold zlen in G. lia.
    + exists l. repeat split; try assumption; try reflexivity; auto; apply B.
Qed.
