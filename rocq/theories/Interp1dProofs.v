(** [interpolate1d]: lemmas. *)
From Verif Require Import Base BaseProofs MathModel AxisModel AxisSpec AxisProofs AxisProofs2 InterpModel InterpSpec Interp1dModel Interp1dSpec InterpProofs InterpProofs2 InterpProofs3 InterpProofs4 InterpProofs5 InterpProofs6 InterpProofs7 InterpProps.
Open Scope nat_scope.

(** ** Sub-lists *)
Definition cut (l : list Q) (s n : nat) : list Q := firstn n (skipn s l).
Lemma cut_length : forall l s n, s + n <= length l -> length (cut l s n) = n.
Proof. intros l s n H. unfold cut. rewrite firstn_length, skipn_length. lia. Qed.
Lemma nth_firstn_lt : forall (l : list Q) n k, k < n -> nth k (firstn n l) 0%Q = nth k l 0%Q.
Proof. induction l as [|a l IH]; intros [|n] [|k] H; cbn; auto; try lia. apply IH. lia. Qed.
Lemma nth_skipn_add : forall (l : list Q) s k, nth k (skipn s l) 0%Q = nth (s + k) l 0%Q.
Proof. induction l as [|a l IH]; intros [|s] k; cbn; auto. destruct k; reflexivity. Qed.
Lemma cut_at : forall l s n k, k < n -> at_ (cut l s n) k = at_ l (s + k).
Proof. intros l s n k H. unfold at_, cut. rewrite nth_firstn_lt by exact H. apply nth_skipn_add. Qed.
Lemma cut_increasing : forall l s n, increasing l -> s + n <= length l -> increasing (cut l s n).
Proof.
  intros l s n I H i Hi. rewrite cut_length in Hi by exact H. rewrite !cut_at by lia. replace (s + S i) with (S (s + i)) by lia. apply I. lia.
Qed.
Lemma cut_data : forall m xa ya s n, data m xa ya -> s + n <= length xa -> 1 <= n -> data n (cut xa s n) (cut ya s n).
Proof.
  intros m xa ya s n (L & N & I) H Hn. split; [rewrite !cut_length by lia; reflexivity|]. split; [rewrite cut_length by lia; lia|]. apply cut_increasing; auto.
Qed.
Lemma cut_cell : forall xa s n x j, increasing xa -> s + n <= length xa -> s <= j -> S j < s + n -> in_cell xa x j -> in_cell (cut xa s n) x (j - s).
Proof.
  intros xa s n x j I H H1 H2 (A & B & C). split; [rewrite cut_length by exact H; lia|]. rewrite !cut_at by lia.
  replace (s + S (j - s)) with (S j) by lia. replace (s + (j - s)) with j by lia. split; [exact B|]. destruct C as [C|[-> C]]; [left; exact C|right; split; [lia|exact C]].
Qed.

(** ** Axes *)
Definition vals (a : axis) : list Q := map (fun k => fval (a_cont a) (Z.of_nat k)) (seq 0 (Z.to_nat (len a))).
Lemma vals_length : forall a, length (vals a) = Z.to_nat (len a).
Proof. intro a. unfold vals. rewrite map_length, seq_length. reflexivity. Qed.
Lemma vals_at : forall a k, k < Z.to_nat (len a) -> at_ (vals a) k = fval (a_cont a) (Z.of_nat k).
Proof.
  intros a k H. unfold at_, vals. rewrite (nth_indep _ 0%Q (fval (a_cont a) (Z.of_nat 0))) by (rewrite map_length, seq_length; exact H).
  rewrite map_nth with (f := fun k => fval (a_cont a) (Z.of_nat k)). rewrite seq_nth by exact H. reflexivity.
Qed.
Lemma list_at_ext : forall l l', length l = length l' -> (forall k, k < length l -> at_ l k = at_ l' k) -> l = l'.
Proof. intros l l' H H'. apply (nth_ext l l' 0%Q 0%Q H). exact H'. Qed.
Lemma slice_vals : forall a s n, wf (a_cont a) -> s + n <= Z.to_nat (len a) -> slice a (Z.of_nat s) (Z.of_nat n) = Ok (cut (vals a) s n).
Proof.
  intros a s n W H. unfold slice. unfold len in H. pose proof (wf_size _ W). destruct (Z.ltb_spec (Z.of_nat s) 0); [lia|]. rewrite Z.gtb_ltb. destruct (Z.ltb_spec (c_size (a_cont a)) (Z.of_nat s + Z.of_nat n)); [lia|]. cbn [orb].
  assert (LV : length (vals a) = Z.to_nat (c_size (a_cont a))) by apply vals_length.
  assert (G : forall l, length l = n -> (forall k, k < n -> at_ l k = fval (a_cont a) (Z.of_nat (s + k))) -> l = cut (vals a) s n).
  { intros l Hl Hk. apply list_at_ext; [rewrite cut_length by lia; exact Hl|]. intros k Kk. rewrite Hl in Kk. rewrite cut_at, vals_at by (unfold len; lia). apply Hk. exact Kk. }
  destruct (a_cont a) as [|asc pts|asc m st dx inv] eqn:E; [destruct W| |]; f_equal; apply G.
  - cbn in H, H1. unfold zlen in *. rewrite firstn_length, skipn_length. lia.
  - intros k Hk. cbn in H, H1. unfold zlen in *. unfold at_. rewrite Nat2Z.id, Nat2Z.id, nth_firstn_lt, nth_skipn_add by exact Hk. unfold fval. cbn [c_value]. unfold znth. destruct (Z.ltb_spec (Z.of_nat (s + k)) 0); [lia|]. rewrite Nat2Z.id.
    destruct (nth_error pts (s + k)) eqn:En; [apply nth_error_nth with (d := 0%Q) in En; exact En|]. apply nth_error_None in En. lia.
  - rewrite map_length, seq_length, Nat2Z.id. reflexivity.
  - intros k Hk. unfold at_. rewrite Nat2Z.id. rewrite (nth_indep _ 0%Q (st + inject_Z (Z.of_nat s + Z.of_nat 0) * dx)%Q) by (rewrite map_length, seq_length; exact Hk).
    rewrite map_nth with (f := fun k => (st + inject_Z (Z.of_nat s + Z.of_nat k) * dx)%Q). rewrite seq_nth by exact Hk. unfold fval. cbn [c_value Nat.add]. rewrite Nat2Z.inj_add. reflexivity.
Qed.
Lemma segment_cut : forall y s n, s + n <= length y -> segment y (Z.of_nat s) (Z.of_nat n) = Ok (cut y s n).
Proof.
  intros y s n H. unfold segment, zlen. destruct (Z.ltb_spec (Z.of_nat s) 0); [lia|]. destruct (Z.ltb_spec (Z.of_nat n) 0); [lia|]. destruct (Z.ltb_spec (Z.of_nat (length y)) (Z.of_nat s + Z.of_nat n)); [lia|].
  cbn [orb]. unfold cut. rewrite !Nat2Z.id. reflexivity.
Qed.
Lemma vals_increasing : forall a, wf (a_cont a) -> is_ascending a = true -> increasing (vals a).
Proof.
  intros a W A i Hi. rewrite vals_length in Hi. rewrite !vals_at by lia. pose proof (wf_mono _ W (Z.of_nat i) (Z.of_nat (S i)) ltac:(lia)) as M. unfold len in Hi. unfold is_ascending in A. rewrite A in M. apply M. lia.
Qed.
(** Window of a node: start and number of points. *)
Definition wstart (i h : nat) : nat := i - h.
Definition wcount (i h n : nat) : nat := Nat.min (i + h) (n - 1) - (i - h) + 1.
Lemma window_nat : forall i h n, i < n -> window (Z.of_nat i) (Z.of_nat n) (Z.of_nat h) = (Z.of_nat (wstart i h), Z.of_nat (wcount i h n)).
Proof. intros i h n H. unfold window, wstart, wcount. f_equal; lia. Qed.
(** No normalisation is needed for [x]. *)
Definition as_is (a : axis) (x : Q) : Prop :=
  is_angle a = false \/ exists v, at_index a 0 v /\ (v <= x < v + 360)%Q.
Lemma as_is_normal : forall a x, axis_ok a -> is_ascending a = true -> as_is a x -> normalize_coordinate a x = x.
Proof.
  intros a x (W & C & _) A [H|(v & Hv & H)].
  - apply normalize_none. unfold is_angle in H. destruct (a_circle a); [discriminate|reflexivity].
  - apply at_index_iff in Hv as [_ ->]; [|exact W]. unfold normalize_coordinate. destruct (c_min_max_value _ W) as [E _]. unfold c_min in *. rewrite E. unfold is_ascending in A. rewrite A.
    unfold normalize_coordinate_min. destruct C as [->| ->]; [reflexivity|]. destruct (Qleb_spec (fval (a_cont a) 0 + 360) x); [lra|]. destruct (Qltb_spec x (fval (a_cont a) 0)); [lra|]. reflexivity.
Qed.
(** One turn of the loop. *)
Lemma one_turn : forall pk a y h be o x, axis_ok a -> is_ascending a = true -> as_is a x -> length y = Z.to_nat (len a) ->
  exists i, nearest_last a x (Z.of_nat i) /\ i < Z.to_nat (len a) /\
    interpolate_one pk a y (Z.of_nat h) be o x = call pk o (cut (vals a) (wstart i h) (wcount i h (Z.to_nat (len a)))) (cut y (wstart i h) (wcount i h (Z.to_nat (len a)))) x.
Proof.
  intros pk a y h be o x OK A N L. pose proof OK as (W & _). pose proof (wf_size _ W) as P. unfold interpolate_one, find_index. rewrite (as_is_normal a x OK A N).
  destruct (c_find_spec (a_cont a) x true W) as (r & -> & [(_ & F & _)|H]); [discriminate|]. cbn [obind]. destruct H as [R H].
  assert (NL : nearest_last a x r) by (apply nearest_last_iff; [exact W|]; split; [exact R|exact H]).
  exists (Z.to_nat r). rewrite Z2Nat.id by lia. split; [exact NL|]. unfold len in *. split; [lia|]. destruct (Z.eqb_spec r (-1)); [lia|].
  replace r with (Z.of_nat (Z.to_nat r)) at 1 by lia. replace (c_size (a_cont a)) with (Z.of_nat (Z.to_nat (c_size (a_cont a)))) at 1 by lia. rewrite window_nat by lia.
  rewrite segment_cut by (unfold wstart, wcount; lia). cbn [obind]. rewrite slice_vals by (auto; unfold wstart, wcount, len; lia). cbn [obind]. reflexivity.
Qed.
Lemma call_value : forall pk o xa ya x, call pk o xa ya x = (olet o' := compute_coefficients pk o xa ya in olet r := interpolate_ o' xa ya x in Ok (o', r)).
Proof. reflexivity. Qed.
Lemma call_ok : forall pk o xa ya x o' r, call pk o xa ya x = Ok (o', r) -> compute_coefficients pk o xa ya = Ok o' /\ value pk o xa ya x = Ok r.
Proof.
  intros pk o xa ya x o' r H. unfold call in H. open1 H. open1 H. injection H as -> ->. unfold value. rewrite E. cbn [obind]. auto.
Qed.
Lemma value_call : forall pk o xa ya x r, value pk o xa ya x = Ok r -> exists o', call pk o xa ya x = Ok (o', r).
Proof. intros pk o xa ya x r H. unfold value in H. open1 H. exists a. unfold call. rewrite E. cbn [obind]. rewrite H. reflexivity. Qed.
Lemma single_value : forall pk a y h be kind x o0, axis_ok a -> is_ascending a = true -> as_is a x -> length y = Z.to_nat (len a) -> factory_1d kind = Ok o0 ->
  exists i, nearest_last a x (Z.of_nat i) /\ i < Z.to_nat (len a) /\
    interpolate_1d pk a y [x] (Z.of_nat h) be kind =
    (olet v := value pk o0 (cut (vals a) (wstart i h) (wcount i h (Z.to_nat (len a)))) (cut y (wstart i h) (wcount i h (Z.to_nat (len a)))) x in Ok [v]).
Proof.
  intros pk a y h be kind x o0 OK A N L F. destruct (one_turn pk a y h be o0 x OK A N L) as (i & NL & Hi & E). exists i. split; [exact NL|]. split; [exact Hi|].
  pose proof OK as (W & _). pose proof (wf_size _ W). unfold len in L. unfold interpolate_1d, zlen. destruct (Z.eqb_spec (c_size (a_cont a)) (Z.of_nat (length y))); [|lia]. cbn [negb]. rewrite F. cbn [obind interpolate_loop]. rewrite E.
  unfold call, value. destruct (compute_coefficients _ _ _ _); cbn [obind]; auto. destruct (interpolate_ _ _ _ _); cbn [obind]; reflexivity.
Qed.
Lemma as_is_case : forall a x, axis_ok a -> is_angle a = false -> as_is a x.
Proof. intros. left. assumption. Qed.
