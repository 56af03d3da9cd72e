(** Histories and quantiles of the streaming histogram. *)
From Verif Require Import Base BaseProofs HistModel HistSpec HistProofs.
From Coq Require Import Permutation.
Open Scope Q_scope.

Definition wv (s : Q * Q) : Q := snd s * fst s.

Lemma least_cons_min : forall m x l, least m l -> least (if Qltb x m then x else m) (l ++ [x]).
Proof.
  intros m x l [(y & Hy & Ey) L]. destruct (Qltb_spec x m) as [H|H]; split.
  - exists x. split; [apply in_or_app; right; left; reflexivity|reflexivity].
  - intros z Hz. apply in_app_or in Hz. destruct Hz as [Hz|[<-|[]]]; [specialize (L z Hz); lra|lra].
  - exists y. split; [apply in_or_app; left; exact Hy|exact Ey].
  - intros z Hz. apply in_app_or in Hz. destruct Hz as [Hz|[<-|[]]]; [specialize (L z Hz); lra|lra].
Qed.
Lemma greatest_cons_max : forall m x l, greatest m l -> greatest (if Qltb m x then x else m) (l ++ [x]).
Proof.
  intros m x l [(y & Hy & Ey) L]. destruct (Qltb_spec m x) as [H|H]; split.
  - exists x. split; [apply in_or_app; right; left; reflexivity|reflexivity].
  - intros z Hz. apply in_app_or in Hz. destruct Hz as [Hz|[<-|[]]]; [specialize (L z Hz); lra|lra].
  - exists y. split; [apply in_or_app; left; exact Hy|exact Ey].
  - intros z Hz. apply in_app_or in Hz. destruct Hz as [Hz|[<-|[]]]; [specialize (L z Hz); lra|lra].
Qed.
Lemma least_merge : forall d m n l k, least m (d :: l) -> least n (d :: k) ->
  least (if Qltb n m then n else m) (d :: l ++ k).
Proof.
  intros d m n l k [(y & Hy & Ey) L] [(z & Hz & Ez) K].
  assert (In1 : forall a, In a (d :: l) -> In a (d :: l ++ k)) by (intros a [H|H]; [left; exact H|right; apply in_or_app; left; exact H]).
  assert (In2 : forall a, In a (d :: k) -> In a (d :: l ++ k)) by (intros a [H|H]; [left; exact H|right; apply in_or_app; right; exact H]).
  assert (Cover : forall a, In a (d :: l ++ k) -> In a (d :: l) \/ In a (d :: k)).
  { intros a [H|H]; [left; left; exact H|]. apply in_app_or in H. destruct H; [left; right|right; right]; assumption. }
  destruct (Qltb_spec n m) as [H|H]; split.
  - exists z; auto.
  - intros a Ha. destruct (Cover a Ha) as [C|C]; [specialize (L a C)|specialize (K a C)]; lra.
  - exists y; auto.
  - intros a Ha. destruct (Cover a Ha) as [C|C]; [specialize (L a C)|specialize (K a C)]; lra.
Qed.
Lemma greatest_merge : forall d m n l k, greatest m (d :: l) -> greatest n (d :: k) ->
  greatest (if Qltb m n then n else m) (d :: l ++ k).
Proof.
  intros d m n l k [(y & Hy & Ey) L] [(z & Hz & Ez) K].
  assert (In1 : forall a, In a (d :: l) -> In a (d :: l ++ k)) by (intros a [H|H]; [left; exact H|right; apply in_or_app; left; exact H]).
  assert (In2 : forall a, In a (d :: k) -> In a (d :: l ++ k)) by (intros a [H|H]; [left; exact H|right; apply in_or_app; right; exact H]).
  assert (Cover : forall a, In a (d :: l ++ k) -> In a (d :: l) \/ In a (d :: k)).
  { intros a [H|H]; [left; left; exact H|]. apply in_app_or in H. destruct H; [left; right|right; right]; assumption. }
  destruct (Qltb_spec m n) as [H|H]; split.
  - exists z; auto.
  - intros a Ha. destruct (Cover a Ha) as [C|C]; [specialize (L a C)|specialize (K a C)]; lra.
  - exists y; auto.
  - intros a Ha. destruct (Cover a Ha) as [C|C]; [specialize (L a C)|specialize (K a C)]; lra.
Qed.

Definition in_range (lo hi : Q) (l : list (Q * Q)) : Prop := forall s, In s l -> lo <= fst s <= hi.

(** Histories that never had more samples than bins. *)
Fixpoint roomy (h : history) : Prop :=
  match h with
  | New _ => True
  | Push h _ _ => roomy h /\ (zlen (pushed h) + 1 <= budget h)%Z
  | Merge h o => roomy h /\ roomy o /\ (zlen (pushed h) + zlen (pushed o) <= budget h)%Z
  | Resize h n => roomy h /\ (zlen (pushed h) <= n)%Z
  end.

Record inv (s : hist) (h : history) : Prop := {
  i_weighted : h_weighted s = false;
  i_budget : h_bin_count s = budget h;
  i_bins : bins_ok (h_bins s);
  i_moderate : all_moderate (h_bins s);
  i_size : (zlen (h_bins s) <= budget h)%Z;
  i_weight : wsum (h_bins s) == wsum (pushed h);
  i_mass : msum (h_bins s) == msum (pushed h);
  i_count : h_count s = zlen (pushed h);
  i_empty : h_bins s = [] <-> pushed h = [];
  i_min : least (h_min s) (dbl_max :: map wv (pushed h));
  i_max : greatest (h_max s) (dbl_min :: map wv (pushed h));
  i_within : forall lo hi, in_range lo hi (pushed h) -> within lo hi (h_bins s);
  i_exact : roomy h -> Permutation (h_bins s) (pushed h) }.

Lemma zlen_app : forall {A : Type} (l m : list A), zlen (l ++ m) = (zlen l + zlen m)%Z.
Proof. intros. unfold zlen. rewrite app_length. lia. Qed.

Lemma update_all_spec : forall items l, bins_ok l -> Forall (fun b => 0 < bweight b) items ->
  exists l', update_all l items = Ok l' /\ bins_ok l' /\ Permutation l' (l ++ items).
Proof.
  induction items as [|b items IH]; intros l B P.
  - exists l. rewrite app_nil_r. split; [reflexivity|]. split; [exact B|apply Permutation_refl].
  - inversion P as [|? ? W P' X]; subst. cbn [update_all].
    destruct (update_bins_spec l (bvalue b) (bweight b) B W) as (l1 & E & B1 & Pm). rewrite E. cbn [obind].
    destruct (IH l1 B1 P') as (l2 & E2 & B2 & Pm2). exists l2. split; [exact E2|]. split; [exact B2|].
    eapply Permutation_trans; [exact Pm2|]. destruct b as [v w]. cbn [bvalue bweight fst snd] in Pm.
    eapply Permutation_trans; [apply Permutation_app_tail; exact Pm|]. cbn [app]. apply Permutation_middle.
Qed.

Lemma careful_budget : forall h, careful h -> (1 <= budget h)%Z.
Proof. induction h; cbn; intros; try tauto. Qed.
Lemma within_perm : forall lo hi l m, Permutation l m -> within lo hi l -> within lo hi m.
Proof. intros lo hi l m P H. eapply Permutation_Forall; eassumption. Qed.

Lemma trim_spec : forall lg s, small_log lg -> (1 <= h_bin_count s)%Z -> bins_ok (h_bins s) -> all_moderate (h_bins s) ->
  exists l', trim lg s = Ok (Hist (h_weighted s) (h_bin_count s) (h_count s) (h_min s) (h_max s) l') /\
    bins_ok l' /\ all_moderate l' /\ (zlen l' <= h_bin_count s)%Z /\
    wsum l' == wsum (h_bins s) /\ msum l' == msum (h_bins s) /\
    (forall lo hi, within lo hi (h_bins s) -> within lo hi l') /\
    ((zlen (h_bins s) <= h_bin_count s)%Z -> l' = h_bins s) /\ (h_bins s <> [] -> l' <> []).
Proof.
  intros lg s L N B M. unfold trim.
  destruct (trim_loop_spec lg (h_weighted s) (h_bin_count s) (length (h_bins s)) (h_bins s) L N B M (le_n _)) as (l' & E & R).
  rewrite E. exists l'. split; [reflexivity|exact R].
Qed.

Lemma run_inv : forall lg h, small_log lg -> careful h -> exists s, run lg h = Ok s /\ inv s h.
Proof.
  intros lg h L. induction h as [n|h IH v w|h IHh o IHo|h IH n]; intros C; cbn [run careful] in *.
  - unfold hist_resize. cbn [h_weighted h_count h_min h_max h_bins hist_new].
    destruct (trim_spec lg (Hist false n 0 dbl_max dbl_min []) L C) as (l' & E & B & M & Z & W & Ms & Wi & Ex & Ne); cbn [h_bins h_bin_count h_weighted h_count h_min h_max] in *.
    { split; [exact I|constructor]. } { constructor. }
    rewrite E. eexists. split; [reflexivity|]. assert (l' = []) by (apply Ex; unfold zlen; cbn; lia). subst l'.
    constructor; cbn [h_weighted h_bin_count h_bins h_count h_min h_max budget pushed]; try assumption; try reflexivity.
    + split; [exists dbl_max; split; [left; reflexivity|reflexivity]|intros x [<-|[]]; lra].
    + split; [exists dbl_min; split; [left; reflexivity|reflexivity]|intros x [<-|[]]; lra].
    + intros; constructor.
  - destruct C as (C & W & Mv). destruct (IH C) as (s & E & I). rewrite E. cbn [obind]. unfold hist_push.
    destruct (update_bins_spec (h_bins s) v w (i_bins _ _ I) W) as (l1 & E1 & B1 & P1). rewrite E1. cbn [obind].
    match goal with |- context [trim lg ?x] => set (t := x) end.
    pose proof (careful_budget h C) as Bu.
    assert (M1 : all_moderate l1).
    { unfold all_moderate. eapply Permutation_Forall; [symmetry; exact P1|]. constructor; [exact Mv|apply (i_moderate _ _ I)]. }
    destruct (trim_spec lg t L) as (l' & E2 & B & M & Z & Ws & Ms & Wi & Ex & Ne); unfold t in *; cbn [h_bins h_bin_count h_weighted h_count h_min h_max] in *.
    { rewrite (i_budget _ _ I). exact Bu. } { exact B1. } { exact M1. }
    rewrite E2. eexists. split; [reflexivity|].
    constructor; cbn [h_weighted h_bin_count h_bins h_count h_min h_max budget pushed]; try assumption.
    + apply (i_weighted _ _ I).
    + apply (i_budget _ _ I).
    + rewrite (i_budget _ _ I) in Z. exact Z.
    + rewrite Ws. unfold wsum in *. rewrite (sum_over_perm _ _ _ P1), sum_over_app. cbn [sum_over].
      pose proof (i_weight _ _ I) as X. unfold wsum in X. rewrite X. ring.
    + rewrite Ms. unfold msum in *. rewrite (sum_over_perm _ _ _ P1), sum_over_app. cbn [sum_over].
      pose proof (i_mass _ _ I) as X. unfold msum in X. rewrite X. ring.
    + rewrite zlen_app. rewrite (i_count _ _ I). reflexivity.
    + split; intro H; [|apply app_eq_nil in H; destruct H; discriminate].
      exfalso. apply (Ne); [|exact H]. intro X. subst l1. apply Permutation_nil in P1. discriminate.
    + rewrite map_app. cbn [map]. change (dbl_max :: map wv (pushed h) ++ [wv (v, w)]) with ((dbl_max :: map wv (pushed h)) ++ [wv (v, w)]).
      apply least_cons_min. apply (i_min _ _ I).
    + rewrite map_app. cbn [map]. change (dbl_min :: map wv (pushed h) ++ [wv (v, w)]) with ((dbl_min :: map wv (pushed h)) ++ [wv (v, w)]).
      apply greatest_cons_max. apply (i_max _ _ I).
    + intros lo hi R. apply Wi. eapply within_perm; [symmetry; exact P1|]. constructor.
      * apply (R (v, w)). apply in_or_app. right; left; reflexivity.
      * apply (i_within _ _ I). intros x Hx. apply R. apply in_or_app. left; exact Hx.
    + intros [R1 R2]. assert (X : l' = l1).
      { apply Ex. rewrite (i_budget _ _ I). pose proof (i_exact _ _ I R1) as P2. apply Permutation_length in P1, P2.
        unfold zlen, bin in *. cbn [length] in P1. lia. }
      rewrite X. eapply Permutation_trans; [exact P1|]. eapply Permutation_trans; [apply perm_skip; exact (i_exact _ _ I R1)|].
      apply Permutation_cons_append.
  - destruct C as [Ch Co]. destruct (IHh Ch) as (s & E & I). destruct (IHo Co) as (o' & Eo & Io). rewrite E. cbn [obind]. rewrite Eo. cbn [obind].
    unfold hist_merge. destruct (i_bins _ _ Io) as [Ao Po].
    destruct (update_all_spec (h_bins o') (h_bins s) (i_bins _ _ I) Po) as (l1 & E1 & B1 & P1). rewrite E1. cbn [obind].
    match goal with |- context [trim lg ?x] => set (t := x) end.
    pose proof (careful_budget h Ch) as Bu.
    assert (M1 : all_moderate l1).
    { unfold all_moderate. eapply Permutation_Forall; [symmetry; exact P1|]. apply Forall_app. split; [apply (i_moderate _ _ I)|apply (i_moderate _ _ Io)]. }
    destruct (trim_spec lg t L) as (l' & E2 & B & M & Z & Ws & Ms & Wi & Ex & Ne); unfold t in *; cbn [h_bins h_bin_count h_weighted h_count h_min h_max] in *.
    { rewrite (i_budget _ _ I). exact Bu. } { exact B1. } { exact M1. }
    rewrite E2. eexists. split; [reflexivity|].
    constructor; cbn [h_weighted h_bin_count h_bins h_count h_min h_max budget pushed]; try assumption.
    + apply (i_weighted _ _ I).
    + apply (i_budget _ _ I).
    + rewrite (i_budget _ _ I) in Z. exact Z.
    + rewrite Ws. pose proof (i_weight _ _ I) as X. pose proof (i_weight _ _ Io) as Y. unfold wsum in *.
      rewrite (sum_over_perm _ _ _ P1), !sum_over_app, X, Y. reflexivity.
    + rewrite Ms. pose proof (i_mass _ _ I) as X. pose proof (i_mass _ _ Io) as Y. unfold msum in *.
      rewrite (sum_over_perm _ _ _ P1), !sum_over_app, X, Y. reflexivity.
    + rewrite zlen_app, (i_count _ _ I), (i_count _ _ Io). reflexivity.
    + split; intro H.
      * assert (X : l1 = []). { destruct l1 as [|b l1]; [reflexivity|]. exfalso. apply Ne; [discriminate|exact H]. }
        subst l1. apply Permutation_nil in P1. apply app_eq_nil in P1. destruct P1 as [P1 P2].
        apply (i_empty _ _ I) in P1. apply (i_empty _ _ Io) in P2. rewrite P1, P2. reflexivity.
      * apply app_eq_nil in H. destruct H as [H1 H2]. apply (i_empty _ _ I) in H1. apply (i_empty _ _ Io) in H2.
        rewrite H1, H2 in P1. cbn [app] in P1. apply Permutation_sym, Permutation_nil in P1. subst l1.
        apply Ex. rewrite (i_budget _ _ I). unfold zlen. cbn. lia.
    + rewrite map_app. apply least_merge; [apply (i_min _ _ I)|apply (i_min _ _ Io)].
    + rewrite map_app. apply greatest_merge; [apply (i_max _ _ I)|apply (i_max _ _ Io)].
    + intros lo hi R. apply Wi. eapply within_perm; [symmetry; exact P1|]. apply Forall_app. split.
      * apply (i_within _ _ I). intros x Hx. apply R. apply in_or_app. left; exact Hx.
      * apply (i_within _ _ Io). intros x Hx. apply R. apply in_or_app. right; exact Hx.
    + intros (R1 & R2 & R3). pose proof (i_exact _ _ I R1) as P2. pose proof (i_exact _ _ Io R2) as P3. assert (X : l' = l1).
      { apply Ex. rewrite (i_budget _ _ I). pose proof (Permutation_length P1) as L1. pose proof (Permutation_length P2) as L2. pose proof (Permutation_length P3) as L3.
        rewrite app_length in L1. unfold zlen, bin in *. lia. }
      rewrite X. eapply Permutation_trans; [exact P1|]. apply Permutation_app; assumption.
  - destruct C as [C Hn]. destruct (IH C) as (s & E & I). rewrite E. cbn [obind]. unfold hist_resize.
    match goal with |- context [trim lg ?x] => set (t := x) end.
    destruct (trim_spec lg t L) as (l' & E2 & B & M & Z & Ws & Ms & Wi & Ex & Ne); unfold t in *; cbn [h_bins h_bin_count h_weighted h_count h_min h_max] in *.
    { exact Hn. } { apply (i_bins _ _ I). } { apply (i_moderate _ _ I). }
    rewrite E2. eexists. split; [reflexivity|].
    constructor; cbn [h_weighted h_bin_count h_bins h_count h_min h_max budget pushed]; try assumption; try reflexivity.
    + apply (i_weighted _ _ I).
    + rewrite Ws. apply (i_weight _ _ I).
    + rewrite Ms. apply (i_mass _ _ I).
    + apply (i_count _ _ I).
    + split; intro H.
      * apply (i_empty _ _ I). destruct (h_bins s) as [|b l1] eqn:X; [reflexivity|]. exfalso. apply Ne; [discriminate|exact H].
      * apply (i_empty _ _ I) in H. rewrite Ex; [exact H|]. rewrite H. unfold zlen; cbn; lia.
    + apply (i_min _ _ I).
    + apply (i_max _ _ I).
    + intros lo hi R. apply Wi. apply (i_within _ _ I). exact R.
    + intros [R1 R2]. pose proof (i_exact _ _ I R1) as P2. rewrite Ex; [exact P2|]. apply Permutation_length in P2. unfold zlen, bin in *. lia.
Qed.

(** ** Sums computed by the getters *)
Lemma fold_sum : forall (f : bin -> Q) l a, fold_left (fun a b => a + f b) l a == a + fold_left (fun a b => a + f b) l 0.
Proof.
  intros f. induction l as [|b l IH]; intros a; cbn [fold_left]; [ring|]. rewrite IH, (IH (0 + f b)). ring.
Qed.
Lemma sum_of_weights_spec : forall s, sum_of_weights s == wsum (h_bins s).
Proof.
  intro s. unfold sum_of_weights. induction (h_bins s) as [|b l IH]; [reflexivity|]. cbn [fold_left].
  rewrite (fold_sum bweight), IH, wsum_cons. ring.
Qed.
Lemma mass_spec : forall s, fold_left (fun a b => a + bweight b * (bvalue b - 0)) (h_bins s) 0 == msum (h_bins s).
Proof.
  intro s. induction (h_bins s) as [|b l IH]; [reflexivity|]. cbn [fold_left].
  rewrite (fold_sum (fun b => bweight b * (bvalue b - 0))), IH, msum_cons. ring.
Qed.
Lemma wsum_pos : forall l, Forall (fun b => 0 < bweight b) l -> 0 <= wsum l.
Proof. induction 1 as [|b l W _ IH]; [unfold wsum; cbn; lra|]. rewrite wsum_cons. lra. Qed.

(** ** Quantiles *)
Fixpoint halves (l : list bin) : Q :=
  match l with
  | b0 :: ((b1 :: _) as t) => (bweight b0 + bweight b1) * (1 # 2) + halves t
  | _ => 0
  end.
Lemma halves_sum : forall l d, l <> [] -> wsum l == bweight (hd d l) * (1 # 2) + halves l + bweight (last l d) * (1 # 2).
Proof.
  induction l as [|a l IH]; intros d H; [congruence|]. destruct l as [|b t]; [rewrite wsum_cons; unfold wsum; cbn; ring|].
  rewrite wsum_cons, (IH d) by discriminate. change (last (a :: b :: t) d) with (last (b :: t) d). cbn [hd halves]. ring.
Qed.
Lemma halves_nonneg : forall l, Forall (fun b => 0 < bweight b) l -> 0 <= halves l.
Proof.
  induction l as [|a l IH]; intros P; [cbn; lra|]. destruct l as [|b t]; [cbn; lra|].
  inversion P as [|? ? Wa P' X]; subst. inversion P' as [|? ? Wb P'' X]; subst. specialize (IH P'). cbn [halves] in *. lra.
Qed.

Lemma ratio_bounds : forall v0 v1 m h, 0 < h -> 0 <= m <= h -> v0 <= v1 -> v0 <= v0 + m / h * (v1 - v0) <= v1.
Proof.
  intros v0 v1 m h H M V. assert (R : 0 <= m / h <= 1).
  { split; [apply Qle_shift_div_l; lra|apply Qle_shift_div_r; lra]. }
  set (r := m / h) in *. nra.
Qed.
Lemma ratio_mono : forall v0 v1 m n h, 0 < h -> m <= n -> v0 <= v1 -> v0 + m / h * (v1 - v0) <= v0 + n / h * (v1 - v0).
Proof.
  intros v0 v1 m n h H M V. assert (R : m / h <= n / h).
  { apply Qle_shift_div_l; [lra|]. setoid_replace (m / h * h) with m by (field; lra). exact M. }
  nra.
Qed.

Lemma loop_eq : forall a b t m, quantile_loop (a :: b :: t) m =
  if Qltb 0 (m - (bweight a + bweight b) * (1 # 2)) then quantile_loop (b :: t) (m - (bweight a + bweight b) * (1 # 2))
  else Ok (bvalue a + m / ((bweight a + bweight b) * (1 # 2)) * (bvalue b - bvalue a)).
Proof. reflexivity. Qed.
Lemma halves_eq : forall a b t, halves (a :: b :: t) = (bweight a + bweight b) * (1 # 2) + halves (b :: t).
Proof. reflexivity. Qed.

Lemma loop_ok : forall l d mb, bins_ok l -> (2 <= length l)%nat -> 0 <= mb <= halves l ->
  exists r, quantile_loop l mb = Ok r /\ bvalue (hd d l) <= r <= bvalue (last l d).
Proof.
  induction l as [|a l IH]; intros d mb [A P] H M; [cbn in H; lia|]. destruct l as [|b t]; [cbn in H; lia|].
  inversion P as [|? ? Wa P' X]; subst. inversion P' as [|? ? Wb P'' X]; subst. cbn [map] in A. destruct A as [L A].
  rewrite loop_eq. change (last (a :: b :: t) d) with (last (b :: t) d). cbn [hd]. rewrite halves_eq in M. set (hf := (bweight a + bweight b) * (1 # 2)) in *.
  assert (Hf : 0 < hf) by (unfold hf; lra).
  assert (Bl : bvalue b <= bvalue (last (b :: t) d)) by (apply ascending_last; [exact A|left; reflexivity]).
  destruct (Qltb_spec 0 (mb - hf)) as [G|G].
  - destruct t as [|c t]; [cbn [halves] in M; lra|].
    destruct (IH d (mb - hf)) as (r & E & B).
    { split; assumption. } { cbn; lia. } { lra. }
    exists r. split; [exact E|]. cbn [hd] in B. lra.
  - eexists. split; [reflexivity|]. pose proof (ratio_bounds (bvalue a) (bvalue b) mb hf Hf ltac:(lra) L). lra.
Qed.
Lemma loop_mono : forall l m n r s, bins_ok l -> (2 <= length l)%nat -> 0 <= m -> m <= n -> n <= halves l ->
  quantile_loop l m = Ok r -> quantile_loop l n = Ok s -> r <= s.
Proof.
  induction l as [|a l IH]; intros m n r s [A P] H M MN N Er Es; [cbn in H; lia|]. destruct l as [|b t]; [cbn in H; lia|].
  inversion P as [|? ? Wa P' X]; subst. inversion P' as [|? ? Wb P'' X]; subst. cbn [map] in A. destruct A as [L A].
  rewrite loop_eq in Er, Es. rewrite halves_eq in N. set (hf := (bweight a + bweight b) * (1 # 2)) in *.
  assert (Hf : 0 < hf) by (unfold hf; lra).
  destruct (Qltb_spec 0 (m - hf)) as [G1|G1], (Qltb_spec 0 (n - hf)) as [G2|G2].
  - destruct t as [|c t]; [cbn [halves] in N; lra|].
    eapply (IH (m - hf) (n - hf)); [split; assumption|cbn; lia|lra|lra|lra|exact Er|exact Es].
  - lra.
  - destruct t as [|c t]; [cbn [halves] in N; lra|].
    destruct (loop_ok (b :: c :: t) a (n - hf)) as (s' & E & B); [split; assumption|cbn; lia|lra|].
    assert (s' = s) by congruence. subst s'. cbn [hd] in B.
    pose proof (ratio_bounds (bvalue a) (bvalue b) m hf Hf ltac:(lra) L) as R.
    assert (r = bvalue a + m / hf * (bvalue b - bvalue a)) by congruence. subst r. lra.
  - pose proof (ratio_mono (bvalue a) (bvalue b) m n hf Hf MN L) as R.
    assert (r = bvalue a + m / hf * (bvalue b - bvalue a)) by congruence.
    assert (s = bvalue a + n / hf * (bvalue b - bvalue a)) by congruence. subst r s. exact R.
Qed.

Section Quantile.
  Variable s : hist.
  Variable front : bin.
  Variable rest : list bin.
  Hypothesis Hb : h_bins s = front :: rest.
  Hypothesis Ok_ : bins_ok (h_bins s).
  Hypothesis Wi : within (h_min s) (h_max s) (h_bins s).

  Definition back : bin := last (h_bins s) front.
  Definition W : Q := wsum (h_bins s).

  Lemma front_w : 0 < bweight front.
  Proof. destruct Ok_ as [_ P]. rewrite Hb in P. inversion P; assumption. Qed.
  Lemma back_w : 0 < bweight back.
  Proof.
    destruct Ok_ as [_ P]. rewrite Forall_forall in P. apply P. apply last_in. rewrite Hb. discriminate.
  Qed.
  Lemma front_v : h_min s <= bvalue front <= h_max s.
  Proof. rewrite Hb in Wi. inversion Wi; assumption. Qed.
  Lemma back_v : h_min s <= bvalue back <= h_max s.
  Proof. unfold within in Wi. rewrite Forall_forall in Wi. apply Wi. apply last_in. rewrite Hb. discriminate. Qed.
  Lemma front_back : bvalue front <= bvalue back.
  Proof. destruct Ok_ as [A _]. apply ascending_last; [exact A|rewrite Hb; left; reflexivity]. Qed.
  Lemma W_eq : W == bweight front * (1 # 2) + halves (h_bins s) + bweight back * (1 # 2).
  Proof. unfold W, back. rewrite (halves_sum (h_bins s) front) by (rewrite Hb; discriminate). rewrite Hb. reflexivity. Qed.
  Lemma W_pos : 0 < W.
  Proof.
    rewrite W_eq. pose proof front_w. pose proof back_w. destruct Ok_ as [_ P]. pose proof (halves_nonneg _ P). lra.
  Qed.

  (** The three zones. *)
  Definition zone (q r : Q) : Prop :=
    (W * q <= bweight front * (1 # 2) /\ r == h_min s + W * q / (bweight front * (1 # 2)) * (bvalue front - h_min s)
       /\ h_min s <= r <= bvalue front) \/
    (bweight front * (1 # 2) < W * q /\ W - bweight back * (1 # 2) <= W * q /\
       r == bvalue back + (W * q - (W - bweight back * (1 # 2))) / (bweight back * (1 # 2)) * (h_max s - bvalue back)
       /\ bvalue back <= r <= h_max s) \/
    (bweight front * (1 # 2) < W * q /\ W * q < W - bweight back * (1 # 2) /\ (2 <= length (h_bins s))%nat /\
       (exists x, x == W * q - bweight front * (1 # 2) /\ quantile_loop (h_bins s) x = Ok r)
       /\ bvalue front <= r <= bvalue back).

  Lemma quantile_zone : forall q, 0 <= q <= 1 -> exists r, hist_quantile s q = Ok (Some r) /\ zone q r.
  Proof.
    intros q Hq. unfold hist_quantile. rewrite Hb. rewrite <- Hb.
    replace (Qltb q 0) with false by (symmetry; apply Qltb_false; lra).
    replace (Qltb 1 q) with false by (symmetry; apply Qltb_false; lra). cbn [orb].
    fold back. pose proof (sum_of_weights_spec s) as SW. fold W in SW. set (sw := sum_of_weights s) in *.
    pose proof front_w as Fw. pose proof back_w as Bw. pose proof front_v as Fv. pose proof back_v as Bv. pose proof W_pos as Wp. pose proof W_eq as We.
    assert (Eq : sw * q == W * q) by (rewrite SW; reflexivity).
    destruct (Qleb_spec (sw * q) (bweight front * (1 # 2))) as [L|L].
    { eexists. split; [reflexivity|]. left. split; [lra|].
      assert (0 <= sw * q) by nra. split; [rewrite Eq; reflexivity|]. apply ratio_bounds; lra. }
    destruct (Qleb_spec (sw - bweight back * (1 # 2)) (sw * q)) as [R|R].
    { eexists. split; [reflexivity|]. right. left. split; [lra|]. split; [lra|]. split; [rewrite Eq, SW; reflexivity|].
      apply ratio_bounds; [lra| |lra]. assert (sw * q <= sw) by nra. lra. }
    destruct Ok_ as [A P]. assert (Len : (2 <= length (h_bins s))%nat).
    { rewrite Hb. destruct rest as [|b t] eqn:Er; [exfalso|cbn; lia]. rewrite Hb, ?Er in We. unfold back in *. rewrite Hb, ?Er in *. cbn [last halves] in *. lra. }
    destruct (loop_ok (h_bins s) front (sw * q - bweight front * (1 # 2))) as (r & E & B); [split; assumption|exact Len|lra|].
    exists r. rewrite E. split; [reflexivity|]. right. right. split; [lra|]. split; [lra|]. split; [exact Len|]. split.
    - exists (sw * q - bweight front * (1 # 2)). split; [rewrite Eq; reflexivity|exact E].
    - replace (hd front (h_bins s)) with front in B by (rewrite Hb; reflexivity). exact B.
  Qed.

  Lemma zone_mono : forall p q r t, 0 <= p -> p <= q -> q <= 1 -> zone p r -> zone q t -> r <= t.
  Proof.
    intros p q r t Hp Hpq Hq Zp Zq. pose proof W_pos as Wp. pose proof front_w as Fw. pose proof back_w as Bw.
    pose proof front_v as Fv. pose proof back_v as Bv. pose proof front_back as FB. pose proof W_eq as We.
    assert (M : W * p <= W * q) by nra.
    destruct Zp as [(P1 & P2 & P3)|[(P0 & P1 & P2 & P3)|(P0 & P1 & Pl & (x & X1 & X2) & P3)]],
             Zq as [(Q1 & Q2 & Q3)|[(Q0 & Q1 & Q2 & Q3)|(Q0 & Q1 & Ql & (y & Y1 & Y2) & Q3)]]; try lra.
    - rewrite P2, Q2. apply ratio_mono; lra.
    - rewrite P2, Q2. apply ratio_mono; lra.
    - eapply (loop_mono (h_bins s) x y); [exact Ok_|exact Pl|lra|lra|lra|exact X2|exact Y2].
  Qed.
End Quantile.
