(** Binning: lemmas. *)
From Verif Require Import Base BaseProofs MathModel AxisModel AxisSpec AxisProofs AxisProofs2 AxisProofs5 StatsModel StatsSpec StatsProofs StatsProofs2 BinningModel BinningSpec.
From Coq Require Import FinFun.
Open Scope Z_scope.

(** ** The bin of a coordinate *)
Lemma at_lo : forall a, wf (a_cont a) -> at_index a (if c_asc (a_cont a) then 0 else len a - 1) (lo (a_cont a)).
Proof.
  intros a W. assert (H := wf_size _ W). apply at_index_iff; [exact W|]. unfold lo, len. destruct (c_asc (a_cont a)); (split; [lia|reflexivity]).
Qed.
Lemma at_hi : forall a, wf (a_cont a) -> at_index a (if c_asc (a_cont a) then len a - 1 else 0) (hi (a_cont a)).
Proof.
  intros a W. pose proof (wf_size _ W) as S. unfold len, hi. apply at_index_iff; [exact W|]. destruct (c_asc (a_cont a)); (split; [unfold len; lia|reflexivity]).
Qed.
Lemma first_turn_iff : forall a r, wf (a_cont a) -> first_turn a r <-> (lo (a_cont a) <= r /\ r < lo (a_cont a) + 360)%Q.
Proof.
  intros a r W. split.
  - intros (low & (k & K) & L & A & B). apply at_index_iff in K as [R ->]; [|exact W]. pose proof (lo_hi _ k W R) as X. pose proof (L _ _ (at_lo a W)). lra.
  - intros [A B]. exists (lo (a_cont a)). split; [eexists; apply (at_lo a W)|]. split; [|auto].
    intros j w H. apply at_index_iff in H as [R ->]; [|exact W]. apply (lo_hi _ j W R).
Qed.
Lemma same_angle_turn : forall a r r' x, wf (a_cont a) -> first_turn a r -> first_turn a r' -> same_angle r x -> same_angle r' x -> (r == r')%Q.
Proof.
  intros a r r' x W A B (k & K) (m & M). apply first_turn_iff in A, B; try exact W. rewrite K, M in *.
  destruct (Z.lt_trichotomy k m) as [H|[->|H]]; [|reflexivity|].
  - assert (T : (inject_Z k + 1 <= inject_Z m)%Q) by (change 1%Q with (inject_Z 1); rewrite <- inject_Z_plus, <- Zle_Qle; lia). exfalso. lra.
  - assert (T : (inject_Z m + 1 <= inject_Z k)%Q) by (change 1%Q with (inject_Z 1); rewrite <- inject_Z_plus, <- Zle_Qle; lia). exfalso. lra.
Qed.
Lemma nearest_unique : forall a r r' i j, (r == r')%Q -> nearest_last a r i -> nearest_last a r' j -> i = j.
Proof.
  intros a r r' i j E (v & Hv & A) (w & Hw & B). destruct (A j w Hw) as [A1 A2]. destruct (B i v Hv) as [B1 B2].
  rewrite E in A1, A2. destruct (Z.lt_trichotomy i j) as [H|[H|H]]; [|exact H|]; exfalso.
  - specialize (A2 H). lra.
  - specialize (B2 H). lra.
Qed.
Lemma in_bin_unique : forall a x i j, wf (a_cont a) -> in_bin a x i -> in_bin a x j -> i = j.
Proof.
  intros a x i j W (r & R & Hr) (s & S & Hs). apply (nearest_unique a r s i j); auto.
  destruct (is_angle a); [|rewrite R, S; reflexivity]. destruct R, S. eapply same_angle_turn; eassumption.
Qed.
Lemma find_bounded : forall a x, axis_ok a -> exists i, find_index a x true = Ok i /\ 0 <= i < len a /\ in_bin a x i.
Proof.
  intros a x OK. pose proof (proj1 OK) as W. unfold find_index. destruct (c_find_spec (a_cont a) (normalize_coordinate a x) true W) as (r & E & [(_ & H & _)|H]); [discriminate|].
  exists r. split; [exact E|]. split; [apply H|]. exists (normalize_coordinate a x). split; [|apply nearest_last_iff; [exact W|exact H]].
  unfold is_angle. destruct OK as (_ & [C|C] & _); rewrite C.
  - rewrite normalize_none by exact C. reflexivity.
  - destruct (normalize_angle_axis a x W C) as (A & B & _). split; [exact B|]. apply first_turn_iff; [exact W|exact A].
Qed.

(** ** Simple binning *)
Definition same_grid (b b' : binning) : Prop := b_x b' = b_x b /\ b_y b' = b_y b /\ b_wgs b' = b_wgs b.
Lemma same_grid_refl : forall b, same_grid b b.
Proof. repeat split. Qed.
Lemma same_grid_trans : forall a b c, same_grid a b -> same_grid b c -> same_grid a c.
Proof. intros a b c (A & B & C) (D & E & F). unfold same_grid. rewrite D, E, F. auto. Qed.
Lemma cell_update_ok : forall (A : Type) rows cols (m : cells A) ix iy f, 0 <= ix < rows -> 0 <= iy < cols ->
  cell_update rows cols m ix iy f = Ok (upd m ix iy (f (m ix iy))).
Proof.
  intros A rows cols m ix iy f H H'. unfold cell_update, in_matrix.
  destruct (Z.leb_spec 0 ix), (Z.ltb_spec ix rows), (Z.leb_spec 0 iy), (Z.ltb_spec iy cols); try lia. reflexivity.
Qed.
Definition push_value (a : acc) (v : option Q) : acc := match v with Some x => acc_push a (N x) | None => a end.
Definition of_bin (ax ay : axis) (i j : Z) (s : sample3) : Prop := in_bin ax (fst (fst s)) i /\ in_bin ay (snd (fst s)) j.

Lemma push_nearest1_ok : forall b s, axis_ok (b_x b) -> axis_ok (b_y b) ->
  exists b', push_nearest1 b s = Ok b' /\ same_grid b b' /\
    forall i j, (of_bin (b_x b) (b_y b) i j s /\ b_acc b' i j = push_value (b_acc b i j) (snd s)) \/
                (~ of_bin (b_x b) (b_y b) i j s /\ b_acc b' i j = b_acc b i j).
Proof.
  intros b [[x y] z] OX OY. destruct (find_bounded _ x OX) as (ix & EX & RX & BX). destruct (find_bounded _ y OY) as (iy & EY & RY & BY).
  assert (D : forall i j, of_bin (b_x b) (b_y b) i j (x, y, z) <-> i = ix /\ j = iy).
  { intros i j. unfold of_bin. cbn [fst snd]. split.
    - intros [A B]. split; [eapply in_bin_unique; [apply OX|exact A|exact BX]|eapply in_bin_unique; [apply OY|exact B|exact BY]].
    - intros [-> ->]. auto. }
  destruct z as [v|]; unfold push_nearest1.
  - rewrite EX. cbn [obind]. rewrite EY. cbn [obind]. destruct (Z.eqb_spec ix (-1)); [lia|]. destruct (Z.eqb_spec iy (-1)); [lia|]. cbn [negb andb].
    rewrite cell_update_ok by (unfold b_rows, b_cols, len in *; assumption). cbn [obind]. eexists. split; [reflexivity|]. split; [repeat split|].
    intros i j. cbn [with_acc b_acc snd push_value]. unfold upd. rewrite D.
    destruct (Z.eqb_spec i ix) as [->|]; [destruct (Z.eqb_spec j iy) as [->|]|]; cbn [andb]; [left; auto|right; split; [tauto|reflexivity]|right; split; [tauto|reflexivity]].
  - exists b. split; [reflexivity|]. split; [apply same_grid_refl|]. intros i j. rewrite D.
    destruct (Z.eq_dec i ix) as [->|]; [destruct (Z.eq_dec j iy) as [->|]|]; [left; auto|right; split; [tauto|reflexivity]|right; split; [tauto|reflexivity]].
Qed.
Lemma push_nearest_loop : forall l b, axis_ok (b_x b) -> axis_ok (b_y b) ->
  exists b', push_loop push_nearest1 b l = Ok b' /\ same_grid b b' /\
    forall i j, exists sel, selects (of_bin (b_x b) (b_y b) i j) l sel /\
      b_acc b' i j = fold_left push_value (map snd sel) (b_acc b i j).
Proof.
  induction l as [|s l IH]; intros b OX OY; cbn [push_loop].
  - exists b. split; [reflexivity|]. split; [apply same_grid_refl|]. intros i j. exists []. split; [constructor|reflexivity].
  - destruct (push_nearest1_ok b s OX OY) as (b1 & E1 & G1 & C1). rewrite E1. cbn [obind]. destruct G1 as (GX & GY & GW).
    destruct (IH b1) as (b2 & E2 & G2 & C2); [rewrite GX; exact OX|rewrite GY; exact OY|]. exists b2. split; [exact E2|]. split; [eapply same_grid_trans; [|exact G2]; repeat split; auto|].
    intros i j. destruct (C2 i j) as (sel & S & E). rewrite GX, GY in S. rewrite E. destruct (C1 i j) as [[P ->]|[P ->]].
    + exists (s :: sel). split; [constructor; assumption|reflexivity].
    + exists sel. split; [constructor 3; assumption|reflexivity].
Qed.

(** ** Sums over the bins *)
Lemma qsum_app : forall l m, (qsum (l ++ m) == qsum l + qsum m)%Q.
Proof. induction l as [|a l IH]; intro m; cbn [app qsum]; [ring|rewrite IH; ring]. Qed.
Lemma qsum_ext : forall (A : Type) (f g : A -> Q) l, (forall x, In x l -> f x == g x)%Q -> (qsum (map f l) == qsum (map g l))%Q.
Proof.
  intros A f g l H. induction l as [|a l IH]; cbn [map qsum]; [reflexivity|]. rewrite (H a (or_introl eq_refl)), IH; [reflexivity|]. intros; apply H; right; assumption.
Qed.
Lemma qsum_add : forall (A : Type) (f g : A -> Q) l, (qsum (map (fun x => f x + g x)%Q l) == qsum (map f l) + qsum (map g l))%Q.
Proof. intros A f g l. induction l as [|a l IH]; cbn [map qsum]; [ring|rewrite IH; ring]. Qed.
Lemma qsum_zero : forall (A : Type) (l : list A), (qsum (map (fun _ => 0%Q) l) == 0)%Q.
Proof. intros A l. induction l as [|a l IH]; cbn [map qsum]; [reflexivity|rewrite IH; ring]. Qed.
Lemma in_span : forall k n x, In x (span k n) <-> k <= x < k + n.
Proof.
  intros k n x. unfold span. rewrite in_map_iff. split.
  - intros (m & <- & H). apply in_seq in H. lia.
  - intros H. exists (Z.to_nat (x - k)). split; [lia|]. apply in_seq. lia.
Qed.
Lemma span_nodup : forall k n, NoDup (span k n).
Proof. intros k n. unfold span. apply FinFun.Injective_map_NoDup; [intros a b H; lia|apply seq_NoDup]. Qed.
Lemma qsum_single : forall l k (w : Q), NoDup l -> In k l -> (qsum (map (fun i => if i =? k then w else 0%Q) l) == w)%Q.
Proof.
  induction l as [|a l IH]; intros k w ND I; [destruct I|]. inversion ND as [|? ? N ND']; subst. cbn [map qsum]. destruct (Z.eqb_spec a k) as [->|H].
  - rewrite (qsum_ext _ _ (fun _ => 0%Q) l); [rewrite qsum_zero; ring|]. intros x X. destruct (Z.eqb_spec x k) as [->|]; [contradiction|reflexivity].
  - destruct I as [I|I]; [congruence|]. rewrite IH by assumption. ring.
Qed.
Lemma grid_sum_ext : forall rows cols f g, (forall i j, 0 <= i < rows -> 0 <= j < cols -> (f i j == g i j)%Q) -> (grid_sum rows cols f == grid_sum rows cols g)%Q.
Proof. intros rows cols f g H. unfold grid_sum. apply qsum_ext. intros i I. apply qsum_ext. intros j J. apply in_span in I, J. apply H; lia. Qed.
Lemma grid_sum_add : forall rows cols f g, (grid_sum rows cols (fun i j => f i j + g i j) == grid_sum rows cols f + grid_sum rows cols g)%Q.
Proof.
  intros rows cols f g. unfold grid_sum. rewrite <- qsum_add. apply qsum_ext. intros i _. apply qsum_add.
Qed.
Lemma grid_sum_zero : forall rows cols, (grid_sum rows cols (fun _ _ => 0%Q) == 0)%Q.
Proof. intros rows cols. unfold grid_sum. rewrite (qsum_ext _ _ (fun _ => 0%Q)); [apply qsum_zero|]. intros i _. apply qsum_zero. Qed.
Lemma grid_sum_single : forall rows cols a b w, 0 <= a < rows -> 0 <= b < cols -> (grid_sum rows cols (fun i j => if (i =? a) && (j =? b) then w else 0) == w)%Q.
Proof.
  intros rows cols a b w A B. unfold grid_sum.
  rewrite (qsum_ext _ _ (fun i => if i =? a then w else 0%Q)).
  - apply qsum_single; [apply span_nodup|apply in_span; lia].
  - intros i _. destruct (Z.eqb_spec i a) as [->|N]; cbn [andb].
    + apply qsum_single; [apply span_nodup|apply in_span; lia].
    + apply qsum_zero.
Qed.
