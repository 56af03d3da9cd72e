(** Whole arrays, chunks, and reduction of axes. *)
From Verif Require Import Base BaseProofs StatsModel StatsSpec StatsProofs.
Open Scope Z_scope.

Lemma weight_pos : forall l, positive_weights l -> l <> [] -> (0 < weight l)%Q.
Proof.
  intros l P Hn. assert (G : forall l, positive_weights l -> (0 <= weight l)%Q).
  { clear. induction l as [|[v w] l IH]; intros P; unfold weight in *; cbn [total]; [lra|].
    pose proof (P (v, w) (or_introl eq_refl)). cbn in H. specialize (IH (fun s Hs => P s (or_intror Hs))). lra. }
  destruct l as [|[v w] l]; [congruence|]. unfold weight in *. cbn [total].
  pose proof (P (v, w) (or_introl eq_refl)). cbn in H. specialize (G l (fun s Hs => P s (or_intror Hs))). lra.
Qed.

(** The state after a list of pushes. *)
Definition empty_or (a : acc) (l : list sample) (ext : list Q) : Prop :=
  (l = [] /\ a = acc_empty) \/ (l <> [] /\ moments_of a l /\ extremes_of a ext).

Lemma push_weighted_ok : forall a l v w, positive_weights l -> (0 < w)%Q ->
  empty_or a l (map (fun s => (snd s * fst s)%Q) l) ->
  let l' := l ++ [(v, w)] in
  l' <> [] /\ moments_of (acc_push_weighted a (N v) (N w)) l' /\
  extremes_of (acc_push_weighted a (N v) (N w)) (map (fun s => (snd s * fst s)%Q) l').
Proof.
  intros a l v w P Hw S l'. split; [intro E; apply app_eq_nil in E; destruct E; discriminate|].
  assert (Nw : ~ (w == 0)%Q) by lra. unfold acc_push_weighted, l'.
  destruct S as [[-> ->]|(Hn & M & X)].
  - cbn. split; [apply moments_single; [apply is_N; reflexivity|apply is_N; reflexivity|exact Nw]|].
    apply (extremes_single (N v) (N w)); apply is_N; reflexivity.
  - pose proof (weight_pos l P Hn) as W. destruct M as (M0 & M1 & M'). rewrite (is_eq0 _ _ M1).
    destruct (Qeq_bool (weight l) 0) eqn:E; [apply Qeq_bool_iff in E; lra|].
    assert (W1 : (weight [(v, w)] == w)%Q) by (unfold weight; cbn [total]; ring). split.
    + apply moments_merge; try lra.
      * unfold moments_of; tauto.
      * apply moments_single; [apply is_N; reflexivity|apply is_N; reflexivity|exact Nw].
    + rewrite map_app. apply extremes_merge; [exact X|]. apply (extremes_single (N v) (N w)); apply is_N; reflexivity.
Qed.

Lemma push_ok : forall a l v, positive_weights l -> Forall (fun s => snd s = 1%Q) l ->
  empty_or a l (map fst l) ->
  let l' := l ++ [(v, 1%Q)] in
  l' <> [] /\ moments_of (acc_push a (N v)) l' /\ extremes_of (acc_push a (N v)) (map fst l').
Proof.
  intros a l v P U S l'. split; [intro E; apply app_eq_nil in E; destruct E; discriminate|]. unfold l'.
  destruct S as [[-> ->]|(Hn & M & X)].
  - cbn [app map fst]. change (acc_push acc_empty (N v)) with (acc_single (N v) (N 1)). split.
    + apply moments_single; [apply is_N; reflexivity|apply is_N; reflexivity|discriminate].
    + destruct (extremes_single (N v) (N 1) v 1 ltac:(apply is_N; reflexivity) ltac:(apply is_N; reflexivity)) as (lo & hi & A & B & C & D).
      exists lo, hi. split; [exact A|]. split; [exact B|]. split.
      * destruct C as [(x & X1 & X2) X3]. destruct X1 as [<-|[]]. apply least_single. lra.
      * destruct D as [(x & X1 & X2) X3]. destruct X1 as [<-|[]]. apply greatest_single. lra.
  - pose proof (weight_pos l P Hn) as W. split.
    + apply moments_push; [apply is_N; reflexivity|exact M|lra|lra].
    + rewrite map_app. cbn [map fst]. apply extremes_push; [apply is_N; reflexivity|exact X|].
      destruct M as (_ & M1 & _). rewrite (is_eq0 _ _ M1). destruct (Qeq_bool (weight l) 0) eqn:E; [apply Qeq_bool_iff in E; lra|reflexivity].
Qed.

Definition push_opt (a : acc) (v : option Q * Q) : acc :=
  match fst v with Some x => acc_push_weighted a (N x) (N (snd v)) | None => a end.

Lemma push_all_from : forall vs a l, positive_weights (l ++ defined vs) ->
  empty_or a l (map (fun s => (snd s * fst s)%Q) l) ->
  empty_or (fold_left push_opt vs a) (l ++ defined vs) (map (fun s => (snd s * fst s)%Q) (l ++ defined vs)).
Proof.
  induction vs as [|[[x|] w] vs IH]; intros a l P S; cbn [fold_left defined flat_map fst snd].
  - rewrite app_nil_r. exact S.
  - change (flat_map (fun s : option Q * Q => match fst s with Some v => [(v, snd s)] | None => [] end) vs) with (defined vs).
    change ([(x, w)] ++ defined vs) with ([(x, w)] ++ defined vs). rewrite app_assoc. apply IH.
    + rewrite <- app_assoc. exact P.
    + right. unfold push_opt. cbn [fst snd]. apply push_weighted_ok; [| |exact S].
      * intros s Hs. apply P. apply in_or_app. left; exact Hs.
      * apply (P (x, w)). apply in_or_app. right. left. reflexivity.
  - apply IH; assumption.
Qed.
Lemma push_all_weighted_ok : forall vs, positive_weights (defined vs) ->
  empty_or (push_all_weighted vs) (defined vs) (map (fun s => (snd s * fst s)%Q) (defined vs)).
Proof.
  intros vs P. apply (push_all_from vs acc_empty []); [exact P|]. left. auto.
Qed.

Definition unit_samples (vs : list (option Q)) : list sample := defined (map (fun v => (v, 1%Q)) vs).
Lemma unit_positive : forall vs, positive_weights (unit_samples vs) /\ Forall (fun s => snd s = 1%Q) (unit_samples vs).
Proof.
  intros vs. assert (F : Forall (fun s => snd s = 1%Q) (unit_samples vs)).
  { unfold unit_samples. induction vs as [|[x|] vs IH]; cbn; [constructor|constructor; [reflexivity|exact IH]|exact IH]. }
  split; [|exact F]. intros s Hs. rewrite Forall_forall in F. rewrite (F s Hs). reflexivity.
Qed.
Lemma push_all_ok : forall vs, empty_or (push_all vs) (unit_samples vs) (map fst (unit_samples vs)).
Proof.
  intros vs. unfold push_all.
  assert (G : forall vs a l, positive_weights l -> Forall (fun s => snd s = 1%Q) l -> empty_or a l (map fst l) ->
    empty_or (fold_left (fun a v => match v with Some x => acc_push a (N x) | None => a end) vs a)
             (l ++ unit_samples vs) (map fst (l ++ unit_samples vs))).
  { clear. induction vs as [|[x|] vs IH]; intros a l P F S; cbn [fold_left].
    - unfold unit_samples; cbn. rewrite app_nil_r. exact S.
    - change (unit_samples (Some x :: vs)) with ([(x, 1%Q)] ++ unit_samples vs). rewrite app_assoc. apply IH.
      + intros s Hs. apply in_app_or in Hs. destruct Hs as [Hs|[<-|[]]]; [auto|reflexivity].
      + apply Forall_app. split; [exact F|constructor; [reflexivity|constructor]].
      + right. apply push_ok; assumption.
    - apply IH; assumption. }
  apply (G vs acc_empty []); [intros s []|constructor|left; auto].
Qed.

(* ------------------------------------------------------------------ *)
(** * Axes *)

Lemma is_axis_in : forall axes r, is_axis axes r = if in_dec Z.eq_dec r axes then true else false.
Proof.
  intros axes r. unfold is_axis. destruct (in_dec Z.eq_dec r axes) as [H|H].
  - apply existsb_exists. exists r. split; [exact H|apply Z.eqb_refl].
  - destruct (existsb (Z.eqb r) axes) eqn:E; [|reflexivity]. apply existsb_exists in E. destruct E as (x & X1 & X2).
    apply Z.eqb_eq in X2. subst. contradiction.
Qed.
Lemma reduced_shape_keep : forall shape axes r, reduced_shape shape axes r = keep axes r shape.
Proof.
  induction shape as [|d s IH]; intros axes r; cbn [reduced_shape keep]; [reflexivity|].
  rewrite is_axis_in. destruct (in_dec Z.eq_dec r axes); rewrite IH; reflexivity.
Qed.
Lemma zprod_size : forall l, zprod l = size_of l.
Proof. induction l as [|d l IH]; cbn; [reflexivity|]. unfold zprod in IH. rewrite IH. reflexivity. Qed.

Definition all_nonneg (l : list Z) : Prop := Forall (fun d => 0 <= d) l.
Lemma keep_nonneg : forall l axes r, all_nonneg l -> all_nonneg (keep axes r l).
Proof.
  induction l as [|d l IH]; intros axes r H; cbn [keep]; [constructor|]. inversion H; subst.
  destruct (in_dec Z.eq_dec r axes); [apply IH; assumption|constructor; [assumption|apply IH; assumption]].
Qed.
Lemma size_nonneg : forall l, all_nonneg l -> 0 <= size_of l.
Proof. induction 1; cbn; nia. Qed.
Lemma abs_prod : forall shape axes r, all_nonneg shape ->
  Z.abs (zprod (adjusted_dims shape axes r)) = size_of (keep axes r shape).
Proof.
  induction shape as [|d s IH]; intros axes r H; cbn [adjusted_dims keep]; [reflexivity|]. inversion H; subst.
  rewrite is_axis_in. destruct (in_dec Z.eq_dec r axes); cbn [zprod fold_right size_of]; fold (zprod (adjusted_dims s axes (r + 1)));
    rewrite Z.abs_mul, IH by assumption; lia.
Qed.

(** Adjusted strides, dimension by dimension. *)
Lemma adjusted_cons : forall d s axes r, all_nonneg (d :: s) ->
  adjusted_strides (adjusted_dims (d :: s) axes r) =
  (if in_dec Z.eq_dec r axes then 0 else size_of (keep axes (r + 1) s)) :: adjusted_strides (adjusted_dims s axes (r + 1)).
Proof.
  intros d s axes r H. inversion H; subst. cbn [adjusted_dims]. rewrite is_axis_in.
  pose proof (abs_prod s axes (r + 1) H3) as A.
  destruct (adjusted_dims s axes (r + 1)) as [|x t] eqn:E; [destruct s; discriminate|].
  change (adjusted_strides ((if (if in_dec Z.eq_dec r axes then true else false) then -1 else d) :: x :: t)) with
    ((if (if (if in_dec Z.eq_dec r axes then true else false) then -1 else d) =? -1 then 0 else Z.abs (zprod (x :: t))) :: adjusted_strides (x :: t)).
  f_equal. destruct (in_dec Z.eq_dec r axes); [reflexivity|]. replace (d =? -1) with false by lia. exact A.
Qed.

Lemma in_shape_nonneg : forall shape idx, in_shape shape idx -> all_nonneg shape.
Proof.
  induction shape as [|d s IH]; intros idx H; [constructor|]. destruct idx as [|i r]; [destruct H|]. cbn in H. constructor; [lia|].
  eapply IH; apply H.
Qed.
Lemma in_shape_size : forall shape idx, in_shape shape idx -> 0 < size_of shape.
Proof.
  induction shape as [|d s IH]; intros idx H; [cbn; lia|]. destruct idx as [|i r]; [destruct H|]. cbn in *. destruct H as [H1 H2]. specialize (IH _ H2). nia.
Qed.
Lemma position_range : forall shape idx, in_shape shape idx -> 0 <= position shape idx < size_of shape.
Proof.
  induction shape as [|d s IH]; intros idx H; destruct idx as [|i r]; cbn in *; try lia; try tauto.
  destruct H as [H1 H2]. specialize (IH _ H2). nia.
Qed.
Lemma position_inj : forall shape a b, in_shape shape a -> in_shape shape b -> position shape a = position shape b -> a = b.
Proof.
  induction shape as [|d s IH]; intros a b Ha Hb E; destruct a as [|i r], b as [|j t]; cbn in *; try tauto; try reflexivity.
  destruct Ha as [A1 A2], Hb as [B1 B2]. pose proof (position_range _ _ A2). pose proof (position_range _ _ B2).
  assert (i = j) by nia. subst j. f_equal. apply IH; try assumption. nia.
Qed.

Lemma unravel_ok : forall shape idx, in_shape shape idx -> unravel (position shape idx) (c_strides shape) = Ok idx.
Proof.
  induction shape as [|d s IH]; intros idx H; destruct idx as [|i r]; cbn in *; try tauto.
  destruct H as [H1 H2]. pose proof (in_shape_size _ _ H2) as S. pose proof (position_range _ _ H2) as P.
  replace (size_of s =? 0) with false by lia.
  assert (Q : Z.quot (i * size_of s + position s r) (size_of s) = i).
  { rewrite Z.quot_div_nonneg by nia. rewrite Z.add_comm, Z.div_add by lia. rewrite Z.div_small by lia. lia. }
  rewrite Q. replace (i * size_of s + position s r - i * size_of s) with (position s r) by lia. rewrite IH by exact H2. reflexivity.
Qed.

Lemma dot_keep : forall shape idx axes r, in_shape shape idx ->
  dot idx (adjusted_strides (adjusted_dims shape axes r)) = position (keep axes r shape) (keep axes r idx).
Proof.
  induction shape as [|d s IH]; intros idx axes r H; destruct idx as [|i t]; cbn in H; [reflexivity|contradiction|contradiction|].
  rewrite adjusted_cons by (eapply (in_shape_nonneg (d :: s) (i :: t)); exact H). destruct H as [H1 H2].
  unfold dot in *. cbn [combine map fold_right fst snd]. rewrite (IH t axes (r + 1) H2). cbn [keep].
  destruct (in_dec Z.eq_dec r axes); [lia|]. cbn [position]. reflexivity.
Qed.
Lemma in_shape_keep : forall shape idx axes r, in_shape shape idx -> in_shape (keep axes r shape) (keep axes r idx).
Proof.
  induction shape as [|d s IH]; intros idx axes r H; destruct idx as [|i t]; cbn in H; [exact I|contradiction|contradiction|].
  cbn [keep]. destruct H as [H1 H2]. destruct (in_dec Z.eq_dec r axes); [apply IH; exact H2|]. cbn. split; [exact H1|apply IH; exact H2].
Qed.

(** Enumeration in C order. *)
Lemma seq_Z : forall n k, map Z.of_nat (seq k n) = map (fun i => Z.of_nat k + i) (map Z.of_nat (seq 0 n)).
Proof.
  intros n k. rewrite map_map. revert k. induction n as [|n IH]; intros k; [reflexivity|]. cbn [seq map]. f_equal; [lia|].
  rewrite (IH (S k)). rewrite <- (seq_shift n 0), map_map. apply map_ext. intros; lia.
Qed.
Fixpoint consecutive (shape : list Z) (p : Z) (l : list (list Z)) : Prop :=
  match l with [] => True | i :: t => in_shape shape i /\ position shape i = p /\ consecutive shape (p + 1) t end.
Lemma consecutive_app : forall shape l m p, consecutive shape p l -> consecutive shape (p + zlen l) m -> consecutive shape p (l ++ m).
Proof.
  induction l as [|i l IH]; intros m p H1 H2; cbn in *; [unfold zlen in H2; cbn in H2; rewrite Z.add_0_r in H2; exact H2|].
  destruct H1 as (A & B & C). repeat split; try assumption. apply IH; [exact C|].
  unfold zlen in *. cbn [length] in H2. replace (p + 1 + Z.of_nat (length l)) with (p + Z.of_nat (S (length l))) by lia. exact H2.
Qed.
Lemma zlen_app : forall {A : Type} (l m : list A), zlen (l ++ m) = zlen l + zlen m.
Proof. intros. unfold zlen. rewrite app_length. lia. Qed.
Lemma indices_spec : forall shape, all_nonneg shape -> consecutive shape 0 (indices shape) /\ zlen (indices shape) = size_of shape.
Proof.
  induction shape as [|d s IH]; intros H; [cbn; auto|]. inversion H; subst. destruct (IH H3) as [C L]. cbn [indices size_of].
  assert (G : forall n k, (Z.of_nat (k + n) <= d) ->
    consecutive (d :: s) (Z.of_nat k * size_of s) (flat_map (fun i => map (cons i) (indices s)) (map Z.of_nat (seq k n))) /\
    zlen (flat_map (fun i => map (cons i) (indices s)) (map Z.of_nat (seq k n))) = Z.of_nat n * size_of s).
  { induction n as [|n IHn]; intros k Hk; cbn [seq map flat_map]; [cbn; auto|].
    destruct (IHn (S k) ltac:(lia)) as [C1 L1].
    assert (M : forall l p, consecutive s p l -> consecutive (d :: s) (Z.of_nat k * size_of s + p) (map (cons (Z.of_nat k)) l)).
    { induction l as [|i l IHl]; intros p Hc; cbn [map consecutive] in *; [exact I|]. destruct Hc as (A & B & D).
      split; [cbn; split; [lia|exact A]|]. split; [cbn; lia|].
      replace (Z.of_nat k * size_of s + p + 1) with (Z.of_nat k * size_of s + (p + 1)) by lia. apply IHl. exact D. }
    assert (Lm : zlen (map (cons (Z.of_nat k)) (indices s)) = size_of s) by (unfold zlen in *; rewrite map_length; exact L).
    split.
    - apply consecutive_app.
      + specialize (M _ _ C). rewrite Z.add_0_r in M. exact M.
      + rewrite Lm. replace (Z.of_nat k * size_of s + size_of s) with (Z.of_nat (S k) * size_of s) by lia. exact C1.
    - rewrite zlen_app, Lm, L1. lia. }
  destruct (G (Z.to_nat d) 0%nat ltac:(lia)) as [C1 L1]. split; [exact C1|]. rewrite L1. rewrite Z2Nat.id by lia. reflexivity.
Qed.

Definition same_index (a b : list Z) : bool := if list_eq_dec Z.eq_dec a b then true else false.

Lemma znth_range : forall {A : Type} (l : list A) i, 0 <= i < zlen l -> exists a, znth l i = Some a.
Proof.
  intros A l i H. unfold znth. replace (i <? 0) with false by lia.
  destruct (nth_error l (Z.to_nat i)) eqn:E; [eauto|]. apply nth_error_None in E. unfold zlen in H. lia.
Qed.

Lemma push_reduced_ok : forall shape axes (value : list Z -> option Q * Q) l p cells,
  consecutive shape p l -> zlen cells = size_of (keep axes 0 shape) ->
  exists cells', push_reduced (c_strides shape) (adjusted_strides (adjusted_dims shape axes 0)) cells p (map value l) = Ok cells' /\
    zlen cells' = zlen cells /\
    forall k a, in_shape (keep axes 0 shape) k -> znth cells (position (keep axes 0 shape) k) = Some a ->
      znth cells' (position (keep axes 0 shape) k) =
      Some (fold_left push_opt (map value (filter (fun i => same_index (keep axes 0 i) k) l)) a).
Proof.
  intros shape axes value. induction l as [|i l IH]; intros p cells C L.
  - exists cells. cbn. split; [reflexivity|]. split; [reflexivity|]. intros k a _ H. exact H.
  - cbn [consecutive] in C. destruct C as (A & B & D). cbn [map push_reduced]. destruct (value i) as [v w] eqn:Ev.
    set (j := position (keep axes 0 shape) (keep axes 0 i)).
    pose proof (in_shape_keep shape i axes 0 A) as Ki. pose proof (position_range _ _ Ki) as Kr. fold j in Kr.
    destruct (znth_range cells j ltac:(lia)) as [cj Hj].
    assert (E : exists cells1, push_cell (c_strides shape) (adjusted_strides (adjusted_dims shape axes 0)) cells p v w = Ok cells1 /\
       zlen cells1 = zlen cells /\
       forall k a, in_shape (keep axes 0 shape) k -> znth cells (position (keep axes 0 shape) k) = Some a ->
         znth cells1 (position (keep axes 0 shape) k) = Some (if same_index (keep axes 0 i) k then push_opt a (v, w) else a)).
    { unfold push_cell. destruct v as [x|].
      - rewrite <- B, unravel_ok by exact A. cbn [obind]. rewrite dot_keep by exact A. fold j. rewrite Hj.
        eexists. split; [reflexivity|]. split.
        { unfold zlen. f_equal. clear. revert cells. induction (Z.to_nat j); intros [|c cells]; cbn; try reflexivity. f_equal; apply IHn. }
        intros k a Hk Ha. unfold same_index. destruct (list_eq_dec Z.eq_dec (keep axes 0 i) k) as [Eq|Ne].
        + rewrite <- Eq in Ha |- *. fold j in Ha |- *. assert (a = cj) by congruence. subst a. unfold push_opt. cbn [fst snd].
          unfold znth. replace (j <? 0) with false by lia.
          assert (Hlen : (Z.to_nat j < length cells)%nat) by (unfold zlen in L; lia).
          revert Hlen. clear. generalize (Z.to_nat j). induction cells; intros n Hn; cbn in *; [lia|]. destruct n; cbn; [reflexivity|apply IHcells; lia].
        + pose proof (position_range _ _ Hk) as Kr'. assert (Nj : j <> position (keep axes 0 shape) k).
          { intro C. apply Ne. eapply position_inj; eassumption. }
          unfold znth in *. replace (position (keep axes 0 shape) k <? 0) with false in * by lia. rewrite <- Ha.
          assert (Nn : Z.to_nat j <> Z.to_nat (position (keep axes 0 shape) k)) by lia. revert Nn. clear.
          generalize (Z.to_nat j), (Z.to_nat (position (keep axes 0 shape) k)). induction cells; intros n m Hn; [destruct n; reflexivity|].
          destruct n, m; cbn; try reflexivity; [lia|apply IHcells; lia].
      - exists cells. split; [reflexivity|]. split; [reflexivity|]. intros k a Hk Ha. rewrite Ha. f_equal. unfold push_opt; cbn. destruct (same_index (keep axes 0 i) k); reflexivity. }
    destruct E as (cells1 & E1 & L1 & E2). rewrite E1. cbn [obind].
    destruct (IH (p + 1) cells1 D ltac:(lia)) as (cells' & E3 & L3 & E4). exists cells'. split; [exact E3|]. split; [lia|].
    intros k a Hk Ha. rewrite (E4 k _ Hk (E2 k a Hk Ha)). f_equal. cbn [filter].
    destruct (same_index (keep axes 0 i) k); [|reflexivity]. cbn [map fold_left]. rewrite Ev. reflexivity.
Qed.

Lemma stats_reduce_ok : forall shape axes (value : list Z -> option Q * Q),
  all_nonneg shape -> axes <> [] -> Forall (fun a => 0 <= a < zlen shape) axes ->
  exists cells, stats_reduce shape (c_strides shape) axes (map value (indices shape)) = Ok cells /\
    zlen cells = size_of (keep axes 0 shape) /\
    forall k, in_shape (keep axes 0 shape) k ->
      znth cells (position (keep axes 0 shape) k) =
      Some (push_all_weighted (map value (filter (fun i => same_index (keep axes 0 i) k) (indices shape)))).
Proof.
  intros shape axes value Hs Ha Hb. unfold stats_reduce. destruct axes as [|a0 axes0] eqn:Ax; [congruence|]. rewrite <- Ax in *.
  replace (existsb (fun a : Z => a <? 0) axes || existsb (fun a : Z => zlen shape - 1 <? a) axes) with false.
  2:{ symmetry. apply orb_false_iff. rewrite Forall_forall in Hb. split.
      - destruct (existsb (fun a : Z => a <? 0) axes) eqn:E; [|reflexivity]. apply existsb_exists in E. destruct E as (x & X1 & X2). specialize (Hb x X1). lia.
      - destruct (existsb (fun a : Z => zlen shape - 1 <? a) axes) eqn:E; [|reflexivity]. apply existsb_exists in E. destruct E as (x & X1 & X2). specialize (Hb x X1). lia. }
  rewrite reduced_shape_keep, zprod_size.
  pose proof (size_nonneg _ (keep_nonneg shape axes 0 Hs)) as Sn.
  destruct (indices_spec shape Hs) as [C L].
  destruct (push_reduced_ok shape axes value (indices shape) 0 (repeat acc_empty (Z.to_nat (size_of (keep axes 0 shape)))) C) as (cells & E & L2 & E2).
  { unfold zlen. rewrite repeat_length. lia. }
  exists cells. split; [exact E|]. split; [rewrite L2; unfold zlen; rewrite repeat_length; lia|].
  intros k Hk. apply E2; [exact Hk|]. pose proof (position_range _ _ Hk).
  unfold znth. replace (position (keep axes 0 shape) k <? 0) with false by lia.
  apply nth_error_repeat. lia.
Qed.
