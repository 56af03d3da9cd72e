(** [geodetic.normalize_longitudes] (C118). *)
From Verif Require Import Base BaseProofs MathModel MathProofs LongitudeModel.
Open Scope Z_scope.

(** The array is inside its buffer. *)
Definition allocated (m : lmemory) (a : larray) : Prop :=
  (l_buffer a < length m)%nat /\
  forall i, (i < l_size a)%nat -> 0 <= Z.of_nat (l_first a) + l_step a * Z.of_nat i < zlen (buffer m (l_buffer a)).
(** [y] is the longitude [x] brought between [mn] and [mn + 360]. *)
Definition same_longitude (mn : Q) (x y : option Q) : Prop :=
  match x, y with
  | Some x, Some y => (mn <= y < mn + 360)%Q /\ exists k, (y == x + 360 * inject_Z k)%Q
  | None, None => True
  | _, _ => False
  end.

Lemma norm_ok : forall mn x, same_longitude mn x (norm mn x).
Proof.
  intros mn [x|]; [|exact I]. cbn [norm option_map same_longitude]. destruct (normalize_angle_spec x mn 360 ltac:(lra)) as (A & B & k & K).
  split; [split; assumption|]. exists k. rewrite K. ring.
Qed.
Lemma norm_from_length : forall mn n l p, length (norm_from mn l p n) = length l.
Proof.
  intros mn n. induction n as [|n IH]; intros l p; [reflexivity|]. cbn [norm_from]. rewrite IH.
  destruct (nth_error l p); [apply set_nth_length|reflexivity].
Qed.
Lemma norm_from_out : forall mn n l p q, (q < p \/ p + n <= q)%nat -> nth_error (norm_from mn l p n) q = nth_error l q.
Proof.
  intros mn n. induction n as [|n IH]; intros l p q H; [reflexivity|]. cbn [norm_from]. rewrite IH by lia.
  destruct (nth_error l p); [apply nth_error_set_nth_neq; lia|reflexivity].
Qed.
Lemma norm_from_in : forall mn n l p q x, (p <= q < p + n)%nat -> nth_error l q = Some x -> nth_error (norm_from mn l p n) q = Some (norm mn x).
Proof.
  intros mn n. induction n as [|n IH]; intros l p q x H E; [lia|]. cbn [norm_from]. destruct (Nat.eq_dec p q) as [->|Ne].
  - rewrite E. rewrite norm_from_out by lia. apply nth_error_set_nth_eq. apply nth_error_Some. congruence.
  - apply IH; [lia|]. destruct (nth_error l p); [rewrite nth_error_set_nth_neq by exact Ne|]; exact E.
Qed.
Lemma buffer_error : forall (m : lmemory) b x, (b < length m)%nat -> nth b (set_nth b x m) [] = x.
Proof. intros m b x H. apply nth_error_nth. apply nth_error_set_nth_eq. exact H. Qed.

Lemma nth_of_error : forall (A : Type) (l l' : list A) n d, nth_error l n = nth_error l' n -> nth n l d = nth n l' d.
Proof.
  intros A l l' n d H. destruct (nth_error l n) as [x|] eqn:E.
  - rewrite (nth_error_nth _ _ _ E). symmetry. apply nth_error_nth. congruence.
  - rewrite !nth_overflow; [reflexivity| |]; apply nth_error_None; congruence.
Qed.

(** ** An array of float64 that can be written, contiguous, is normalised in place: the answer is the
    array itself, its elements are its longitudes in the turn that starts at [mn], and no other cell of
    the memory changes. *)
Theorem C118_in_place : forall m a mn, allocated m a -> l_type a = LF64 -> l_writeable a = true ->
  (l_step a = 1 \/ l_size a = 1%nat /\ 0 <= l_step a) ->
  exists m', normalize_longitudes m a mn = (m', Some a) /\ length m' = length m /\
    (forall i, (i < l_size a)%nat -> exists x y, read m a i = Some x /\ read m' a i = Some y /\ same_longitude mn x y) /\
    (forall b p, (b <> l_buffer a \/ forall i, (i < l_size a)%nat -> p <> address a i) ->
       nth_error (buffer m' b) p = nth_error (buffer m b) p).
Proof.
  intros m a mn [Bo Al] Ty Wr Co. exists (core_in_place m a mn).
  assert (C : contiguous a = true).
  { unfold contiguous. destruct Co as [->|[-> H]]; [reflexivity|]. cbn [Nat.eqb andb]. apply Z.leb_le in H. rewrite H. apply orb_true_r. }
  assert (Ad : forall i, (i < l_size a)%nat -> address a i = (l_first a + i)%nat).
  { intros i Hi. unfold address. destruct Co as [->|[Sz _]]; [lia|]. assert (i = O) by lia. subst i. rewrite Z.mul_0_r. lia. }
  split; [unfold normalize_longitudes, core_normalize; rewrite Wr; unfold is_f64; rewrite Ty, C; reflexivity|].
  split; [apply set_nth_length|].
  assert (Bf : buffer (core_in_place m a mn) (l_buffer a) = norm_from mn (buffer m (l_buffer a)) (l_first a) (l_size a)) by (apply buffer_error; exact Bo).
  split.
  - intros i Hi. unfold read. rewrite Bf. specialize (Al i Hi). unfold zlen in Al.
    destruct (nth_error (buffer m (l_buffer a)) (address a i)) as [x|] eqn:E.
    + exists x, (norm mn x). split; [reflexivity|]. split; [|apply norm_ok]. rewrite Ad in * by exact Hi. apply norm_from_in; [lia|exact E].
    + apply nth_error_None in E. unfold address in E. lia.
  - intros b p H. destruct (Nat.eq_dec b (l_buffer a)) as [->|Ne].
    + destruct H as [H|H]; [congruence|]. rewrite Bf. apply norm_from_out.
      destruct (Nat.lt_ge_cases p (l_first a)); [left; assumption|right]. apply Nat.nlt_ge. intro Lt.
      apply (H (p - l_first a)%nat); [lia|]. rewrite Ad by lia. lia.
    + unfold buffer, core_in_place. f_equal. apply nth_of_error. apply nth_error_set_nth_neq. congruence.
Qed.
Print Assumptions C118_in_place.

(** ** An array that cannot be written is left unchanged, with all the memory; the answer is a new array. *)
Theorem C118_read_only : forall m a mn, allocated m a -> l_writeable a = false ->
  exists m' r, normalize_longitudes m a mn = (m', Some r) /\ (length m <= l_buffer r)%nat /\ allocated m' r /\
    l_size r = l_size a /\ l_type r = LF64 /\ l_writeable r = true /\
    (forall b, (b < length m)%nat -> buffer m' b = buffer m b) /\
    (forall i, (i < l_size a)%nat -> exists x y, read m a i = Some x /\ read m' r i = Some y /\ same_longitude mn x y).
Proof.
  intros m a mn [Bo Al] Wr. unfold normalize_longitudes, core_normalize. rewrite Wr, andb_false_r. cbn [andb].
  eexists. eexists. split; [reflexivity|]. cbn [l_buffer l_size l_type l_writeable]. split; [lia|].
  assert (B : buffer (m ++ [map (norm mn) (elements m a)]) (length m) = map (norm mn) (elements m a)).
  { unfold buffer. rewrite app_nth2 by lia. rewrite Nat.sub_diag. reflexivity. }
  split; [|split; [reflexivity|split; [reflexivity|split; [reflexivity|split]]]].
  - split; [cbn [l_buffer]; rewrite app_length; cbn [length]; lia|]. cbn [l_buffer l_size l_first l_step]. rewrite B. unfold zlen, elements.
    rewrite !map_length, seq_length. intros i Hi. lia.
  - intros b Hb. unfold buffer. apply app_nth1. exact Hb.
  - intros i Hi. specialize (Al i Hi). unfold read at 2. cbn [l_buffer]. rewrite B.
    replace (address _ i) with i by (unfold address; cbn [l_first l_step]; lia).
    destruct (read m a i) as [x|] eqn:E.
    + exists x, (norm mn x). split; [reflexivity|]. split; [|apply norm_ok]. unfold elements. rewrite !nth_error_map.
      rewrite (nth_error_nth' _ O) by (rewrite seq_length; exact Hi). rewrite seq_nth by exact Hi. cbn [option_map Nat.add]. rewrite E. reflexivity.
    + exfalso. unfold read in E. apply nth_error_None in E. unfold address in E. unfold zlen in Al. lia.
Qed.
Print Assumptions C118_read_only.

(** Longitudes that are already in the turn keep their value. *)
Theorem C118_unchanged : forall mn x y, same_longitude mn (Some x) (Some y) -> (mn <= x < mn + 360)%Q -> (y == x)%Q.
Proof.
  intros mn x y [[A B] [k K]] [C D]. assert (k = 0).
  { assert (X : (-1 < inject_Z k)%Q) by lra. assert (Y : (inject_Z k < 1)%Q) by lra. change (-1)%Q with (inject_Z (-1)) in X. change 1%Q with (inject_Z 1) in Y.
    rewrite <- Zlt_Qlt in X, Y. lia. }
  subst k. rewrite K. ring.
Qed.
Print Assumptions C118_unchanged.

(** ** An array that can be written but that is not of float64, or that is strided, is answered without
    having been normalised: the library works on a copy, which is dropped. *)
Theorem C118_writeable_refuted : forall m a mn, allocated m a -> l_writeable a = true ->
  (l_type a <> LF64 \/ (l_step a <> 1 /\ (1 < l_size a)%nat)) ->
  exists m', normalize_longitudes m a mn = (m', Some a) /\
    (forall b, (b < length m)%nat -> buffer m' b = buffer m b) /\
    (forall i, (i < l_size a)%nat -> read m' a i = read m a i).
Proof.
  intros m a mn [Bo _] Wr Bad. unfold normalize_longitudes, core_normalize. rewrite Wr.
  assert (F : is_f64 a && true && contiguous a = false).
  { rewrite andb_true_r. unfold is_f64. destruct (l_type a) eqn:T; [|reflexivity]. destruct Bad as [Bad|[Bad Sz]]; [congruence|]. unfold contiguous.
    apply Z.eqb_neq in Bad. rewrite Bad. destruct (Nat.eqb_spec (l_size a) 1); [lia|reflexivity]. }
  rewrite F. eexists. split; [reflexivity|].
  assert (K : forall b, (b < length m)%nat -> buffer (m ++ [map (norm mn) (elements m a)]) b = buffer m b).
  { intros b Hb. unfold buffer. apply app_nth1. exact Hb. }
  split; [exact K|]. intros i _. unfold read. rewrite K by exact Bo. reflexivity.
Qed.
Print Assumptions C118_writeable_refuted.

Example C118_ex : let m := [[Some 350; Some 10; None; Some (-190)]]%Q in
  snd (normalize_longitudes m (LArray LF64 0 0 1 4 true) (-180)) = Some (LArray LF64 0 0 1 4 true) /\
  (exists u v w, buffer (fst (normalize_longitudes m (LArray LF64 0 0 1 4 true) (-180))) 0 = [Some u; Some v; None; Some w] /\ u == -10 /\ v == 10 /\ w == 170)%Q /\
  buffer (fst (normalize_longitudes m (LArray LOther 0 0 1 4 true) (-180))) 0 = [Some 350; Some 10; None; Some (-190)]%Q.
Proof. split; [reflexivity|]. split; [|vm_compute; reflexivity]. do 3 eexists. split; [vm_compute; reflexivity|]. repeat split; reflexivity. Qed.
