(** One-dimensional binning: lemmas. *)
From Verif Require Import Base BaseProofs MathModel AxisModel AxisSpec AxisProofs AxisProofs2 AxisProofs5 StatsModel StatsSpec StatsProofs StatsProofs2 BinningModel BinningSpec BinningHistory BinningProofs BinningProofs2 BinningProofs3 BinningProofs4.
Open Scope Z_scope.

(** A sample of the one-dimensional binning: coordinate, value, weight. *)
Definition in_range_bin (a : axis) (lo hi : Q) (i : Z) (s : Q * (option Q * Q)) : Prop :=
  (lo <= fst s /\ fst s <= hi)%Q /\ in_bin a (fst s) i.
Lemma push1_loop_ok : forall xs b idx z weights zs ws, axis_ok (b_x (b1_base b)) -> b_cols (b1_base b) = 1 ->
  (length xs <= length zs)%nat -> (length xs <= length ws)%nat ->
  (forall k, (k < length xs)%nat -> znth z (idx + Z.of_nat k) = nth_error zs k) ->
  (forall k, (k < length xs)%nat -> match weights with None => nth_error ws k = Some 1%Q | Some w => znth w (idx + Z.of_nat k) = nth_error ws k end) ->
  exists b', push1_loop b idx xs z weights = Ok b' /\ same_grid (b1_base b) (b1_base b') /\ b1_min b' = b1_min b /\ b1_max b' = b1_max b /\
    forall i, exists sel, selects (in_range_bin (b_x (b1_base b)) (b1_min b) (b1_max b) i) (combine xs (combine zs ws)) sel /\
      b_acc (b1_base b') i 0 = fold_left push_opt (map snd sel) (b_acc (b1_base b) i 0).
Proof.
  induction xs as [|x xs IH]; intros b idx z weights zs ws OX CO LZ LW HZ HW; cbn [push1_loop].
  - exists b. split; [reflexivity|]. split; [apply same_grid_refl|]. split; [reflexivity|]. split; [reflexivity|]. intro i. exists []. split; [constructor|reflexivity].
  - destruct zs as [|z0 zs]; [cbn in LZ; lia|]. destruct ws as [|w0 ws]; [cbn in LW; lia|].
    pose proof (HZ 0%nat ltac:(cbn; lia)) as Z0. rewrite Z.add_0_r in Z0. cbn [nth_error] in Z0. rewrite Z0.
    assert (HZ' : forall k, (k < length xs)%nat -> znth z (idx + 1 + Z.of_nat k) = nth_error zs k) by (intros k Hk; replace (idx + 1 + Z.of_nat k) with (idx + Z.of_nat (S k)) by lia; apply (HZ (S k)); cbn; lia).
    assert (HW' : forall k, (k < length xs)%nat -> match weights with None => nth_error ws k = Some 1%Q | Some w => znth w (idx + 1 + Z.of_nat k) = nth_error ws k end).
    { intros k Hk. pose proof (HW (S k) ltac:(cbn; lia)) as X. destruct weights; [replace (idx + 1 + Z.of_nat k) with (idx + Z.of_nat (S k)) by lia|]; exact X. }
    cbn [length] in LZ, LW. cbn [combine].
    assert (SKIP : forall P : Z -> Q * (option Q * Q) -> Prop, (forall i, ~ P i (x, (z0, w0)) \/ z0 = None) -> forall l i sel acc0, (P i (x, (z0, w0)) \/ ~ P i (x, (z0, w0))) -> selects (P i) l sel ->
       exists sel', selects (P i) ((x, (z0, w0)) :: l) sel' /\ fold_left push_opt (map snd sel') acc0 = fold_left push_opt (map snd sel) acc0).
    { intros P HP l i sel acc0 DEC S. destruct DEC as [D|D]; [|exists sel; split; [constructor 3; assumption|reflexivity]].
      exists ((x, (z0, w0)) :: sel). split; [constructor; assumption|]. destruct (HP i) as [C|C]; [contradiction|]. subst z0. reflexivity. }
    assert (DEC : forall i, in_range_bin (b_x (b1_base b)) (b1_min b) (b1_max b) i (x, (z0, w0)) \/ ~ in_range_bin (b_x (b1_base b)) (b1_min b) (b1_max b) i (x, (z0, w0))).
    { intro i. unfold in_range_bin. cbn [fst]. destruct (Qlt_le_dec x (b1_min b)); [right; intros [[A _] _]; lra|]. destruct (Qlt_le_dec (b1_max b) x); [right; intros [[_ A] _]; lra|].
      destruct (find_bounded _ x OX) as (ix & _ & _ & B). destruct (Z.eq_dec i ix) as [->|N]; [left; auto|right; intros [_ A]; apply N; eapply in_bin_unique; [apply OX|exact A|exact B]]. }
    assert (NEXT : (forall i, ~ in_range_bin (b_x (b1_base b)) (b1_min b) (b1_max b) i (x, (z0, w0)) \/ z0 = None) ->
      exists b', push1_loop b (idx + 1) xs z weights = Ok b' /\ same_grid (b1_base b) (b1_base b') /\ b1_min b' = b1_min b /\ b1_max b' = b1_max b /\
        forall i, exists sel, selects (in_range_bin (b_x (b1_base b)) (b1_min b) (b1_max b) i) ((x, (z0, w0)) :: combine xs (combine zs ws)) sel /\
          b_acc (b1_base b') i 0 = fold_left push_opt (map snd sel) (b_acc (b1_base b) i 0)).
    { intro HP. destruct (IH b (idx + 1) z weights zs ws OX CO ltac:(lia) ltac:(lia) HZ' HW') as (b' & E & G & M1 & M2 & C). exists b'. split; [exact E|]. split; [exact G|]. split; [exact M1|]. split; [exact M2|].
      intro i. destruct (C i) as (sel & S & X). destruct (SKIP (in_range_bin (b_x (b1_base b)) (b1_min b) (b1_max b)) HP _ i sel (b_acc (b1_base b) i 0) (DEC i) S) as (sel' & S' & E'). exists sel'. split; [exact S'|]. rewrite X, E'. reflexivity. }
    destruct z0 as [v|]; [|apply NEXT; auto].
    destruct (Qleb_spec (b1_min b) x) as [A|A]; cbn [andb]; [|apply NEXT; intro i; left; intros [[B _] _]; cbn [fst] in B; lra].
    destruct (Qleb_spec x (b1_max b)) as [A'|A']; [|apply NEXT; intro i; left; intros [[_ B] _]; cbn [fst] in B; lra].
    destruct (find_bounded _ x OX) as (ix & EX & RX & BX). rewrite EX. cbn [obind]. destruct (Z.eqb_spec ix (-1)); [lia|].
    pose proof (HW 0%nat ltac:(cbn; lia)) as W0. rewrite Z.add_0_r in W0. cbn [nth_error] in W0.
    replace (match weights with Some w => match znth w idx with Some q => Ok q | None => UB "read beyond the end of weights" end | None => Ok 1%Q end) with (Ok w0) by (destruct weights as [w|]; [rewrite W0; reflexivity|congruence]).
    cbn [obind]. rewrite cell_update_ok by (unfold b_rows, len in *; lia). cbn [obind].
    set (b1 := Binning1 (with_acc (b1_base b) (upd (b_acc (b1_base b)) ix 0 (acc_push_weighted (b_acc (b1_base b) ix 0) (N v) (N w0)))) (b1_min b) (b1_max b)).
    destruct (IH b1 (idx + 1) z weights zs ws OX CO ltac:(lia) ltac:(lia) HZ' HW') as (b' & E & G & M1 & M2 & C). exists b'. split; [exact E|]. split; [exact G|]. split; [exact M1|]. split; [exact M2|].
    intro i. destruct (C i) as (sel & S & X). cbn [b1 b1_base with_acc b_x b1_min b1_max] in S. rewrite X. cbn [b1 b1_base with_acc b_acc]. unfold upd.
    destruct (Z.eqb_spec i ix) as [->|N]; cbn [andb Z.eqb].
    + exists ((x, (Some v, w0)) :: sel). split; [constructor; [split; cbn [fst]; auto|exact S]|]. reflexivity.
    + exists sel. split; [constructor 3; [|exact S]; intros [_ B]; cbn [fst] in B; apply N; eapply in_bin_unique; [apply OX|exact B|exact BX]|reflexivity].
Qed.
Lemma new_binning1_ok : forall x range, axis_ok x -> exists b, new_binning1 x range = Ok b /\ b_x (b1_base b) = x /\ b_cols (b1_base b) = 1 /\ (forall i j, b_acc (b1_base b) i j = acc_empty) /\
  (b1_min b, b1_max b) = match range with Some r => r | None => (lo (a_cont x), hi (a_cont x)) end.
Proof.
  intros x range OK. unfold new_binning1. destruct (axis_regular 0 1 1 0 false) as [y|w|w] eqn:E; [|vm_compute in E; discriminate|vm_compute in E; discriminate]. cbn [obind].
  assert (CY : c_size (a_cont y) = 1) by (vm_compute in E; injection E as <-; reflexivity).
  destruct range as [[l h]|].
  - eexists. split; [reflexivity|]. cbn. auto.
  - destruct (c_min_max_value _ (proj1 OK)) as [-> ->]. eexists. split; [reflexivity|]. cbn. auto.
Qed.
