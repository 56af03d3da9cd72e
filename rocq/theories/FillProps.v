(** C43, C44, C47: gap filling along lines, of matrices, and mirrored window indexes. *)
From Verif Require Import Base BaseProofs MathModel MathProofs FillModel FillSpec FillProofs.
Open Scope Z_scope.

Lemma msl : forall A B (f : nat -> A) (g : nat -> B) n, length (map f (seq 0 n)) = length (map g (seq 0 n)).
Proof. intros. rewrite !map_length. reflexivity. Qed.
Lemma defined_bool : forall m i, defined_at m i -> (i < length m)%nat.
Proof. intros m i H. apply nth_error_Some. unfold defined_at in H. congruence. Qed.
Lemma two_from_fl : forall m f l, first_defined m f -> last_defined m l -> (f < l)%nat -> two_defined m.
Proof. intros m f l (A & _) (B & _) H. exists f, l. auto. Qed.
Lemma not_two_none : forall m, (forall i, ~ defined_at m i) -> ~ two_defined m.
Proof. intros m H (a & b & _ & A & _). exact (H a A). Qed.
Lemma not_two_single : forall m d, first_defined m d -> last_defined m d -> ~ two_defined m.
Proof.
  intros m d (_ & F) (_ & L) (a & b & H & A & B). destruct (lt_eq_lt_dec a d) as [[C|C]|C].
  - exact (F a C A).
  - subst a. exact (L b H B).
  - exact (L a C A).
Qed.
Lemma Zof_pos : forall a b, (a < b)%nat -> (0 < inject_Z (Z.of_nat b - Z.of_nat a))%Q.
Proof. intros a b H. change 0%Q with (inject_Z 0). rewrite <- Zlt_Qlt. lia. Qed.
Lemma inj_sub : forall a b, (inject_Z (Z.of_nat a - Z.of_nat b) == inject_Z (Z.of_nat a) - inject_Z (Z.of_nat b))%Q.
Proof. intros a b. unfold Z.sub. rewrite inject_Z_plus, inject_Z_opp. ring. Qed.

(** ** C43 *)

(** Filling a line of doubles never fails and never alters a defined value; with at least
    two defined values every position becomes defined, gaps are filled by linear
    interpolation between the two neighbouring defined values, and both ends by the
    straight line through the first and the last defined value. *)
Theorem C43_line : forall x mask, length mask = length x -> two_defined mask ->
  exists y f l xf xl,
    fill_line_double x mask = Ok (y, map (fun _ => false) mask) /\
    length y = length x /\
    first_defined mask f /\ last_defined mask l /\ nth_error x f = Some xf /\ nth_error x l = Some xl /\
    (forall i, defined_at mask i -> nth_error y i = nth_error x i) /\
    (forall a i b xa xb, gap mask a i b -> nth_error x a = Some xa -> nth_error x b = Some xb ->
       exists v, nth_error y i = Some v /\ (v == on_line xa xb a i b)%Q) /\
    (forall i, (i < length x)%nat -> (i < f \/ l < i)%nat -> exists v, nth_error y i = Some v /\ (v == on_line xf xl f i l)%Q).
Proof.
  intros x mask L Two. unfold fill_line_double.
  destruct (fill_line_spec Q Qplus Qminus (fun a n => (a * inject_Z n)%Q) (fun a n => (a / inject_Z n)%Q) x mask L)
    as [(N & _)|[(d & F & La & _)|(f & l & xf & xl & y & F & La & Lfl & Ef & El & E & Ly & D & G & A & B)]].
  - exfalso. apply (not_two_none _ N Two).
  - exfalso. apply (not_two_single _ d F La Two).
  - exists y, f, l, xf, xl. split; [exact E|]. split; [exact Ly|]. split; [exact F|]. split; [exact La|]. split; [exact Ef|]. split; [exact El|].
    split; [exact D|]. split.
    + intros a i b xa xb Gp Ea Eb. eexists. split; [apply (G a i b xa xb Gp Ea Eb)|]. unfold interp, on_line.
      assert (P : (0 < inject_Z (Z.of_nat b - Z.of_nat a))%Q) by (apply Zof_pos; destruct Gp; lia).
      field. intro C. rewrite C in P. exact (Qlt_irrefl _ P).
    + intros i Hi [H|H].
      * eexists. split; [apply (B i H)|]. unfold extrap_before, on_line.
        assert (P : (0 < inject_Z (Z.of_nat l - Z.of_nat f))%Q) by (apply Zof_pos; lia).
        rewrite (inj_sub f i), (inj_sub i f). field. intro C. rewrite C in P. exact (Qlt_irrefl _ P).
      * eexists. split; [apply A; lia|]. unfold extrap_after, on_line.
        assert (P : (0 < inject_Z (Z.of_nat l) - inject_Z (Z.of_nat f))%Q) by (rewrite <- inj_sub; apply Zof_pos; lia).
        rewrite (inj_sub i l), (inj_sub i f), (inj_sub l f). field. intro C. rewrite C in P. exact (Qlt_irrefl _ P).
Qed.

Example C43_line_ex : two_defined [true; false; true; true; false; true] /\
  exists y, fill_line_double [0; 10; 0; 0; 40; 0]%Q [true; false; true; true; false; true] = Ok (y, repeat false 6) /\
            Forall2 Qeq y [0; 10; 20; 30; 40; 50]%Q.
Proof.
  split; [exists 1%nat, 4%nat; repeat split; lia|].
  eexists. split; [reflexivity|]. repeat constructor.
Qed.

(** With fewer than two defined values nothing is written, and the whole line is reported
    undefined (even its only defined value). *)
Theorem C43_line_too_few : forall x mask, length mask = length x -> ~ two_defined mask ->
  fill_line_double x mask = Ok (x, map (fun _ => true) mask).
Proof.
  intros x mask L Two. unfold fill_line_double.
  destruct (fill_line_spec Q Qplus Qminus (fun a n => (a * inject_Z n)%Q) (fun a n => (a / inject_Z n)%Q) x mask L)
    as [(N & E)|[(d & F & La & E)|(f & l & xf & xl & y & F & La & Lfl & _)]]; [exact E|exact E|].
  exfalso. apply Two. apply (two_from_fl _ f l F La Lfl).
Qed.
Example C43_line_too_few_ex : fill_line_double [5; 7]%Q [true; false] = Ok ([5; 7]%Q, [true; true]).
Proof. apply (C43_line_too_few [5; 7]%Q [true; false] eq_refl). intros (a & b & H & A & B). apply defined_bool in B as Lb. cbn in Lb. assert (a = 0%nat /\ b = 1%nat) as [-> ->] by lia. discriminate A. Qed.

(** Samples of a straight line are completed exactly. *)
Theorem C43_line_affine : forall x mask p q, length mask = length x -> two_defined mask ->
  (forall i v, defined_at mask i -> nth_error x i = Some v -> (v == p + q * inject_Z (Z.of_nat i))%Q) ->
  exists y m, fill_line_double x mask = Ok (y, m) /\
    forall i, (i < length x)%nat -> exists v, nth_error y i = Some v /\ (v == p + q * inject_Z (Z.of_nat i))%Q.
Proof.
  intros x mask p q L Two Aff. destruct (C43_line x mask L Two) as (y & f & l & xf & xl & E & Ly & F & La & Ef & El & D & G & Ends).
  exists y, (map (fun _ => false) mask). split; [exact E|]. intros i Hi.
  assert (On : forall a b xa xb, (a < b)%nat -> defined_at mask a -> defined_at mask b -> nth_error x a = Some xa -> nth_error x b = Some xb ->
     forall k, (on_line xa xb a k b == p + q * inject_Z (Z.of_nat k))%Q).
  { intros a b xa xb Hab Da Db Ea Eb k. unfold on_line. rewrite (Aff a xa Da Ea), (Aff b xb Db Eb).
    assert (P : (0 < inject_Z (Z.of_nat b) - inject_Z (Z.of_nat a))%Q) by (rewrite <- inj_sub; apply Zof_pos; lia).
    rewrite (inj_sub k a), (inj_sub b a). field. intro C. rewrite C in P. exact (Qlt_irrefl _ P). }
  destruct (defined_dec mask i) as [Di|Ni].
  - destruct (nth_error x i) as [v|] eqn:Ex; [|apply nth_error_None in Ex; lia]. exists v. split; [rewrite D; assumption|]. apply (Aff i v Di Ex).
  - assert (Lfl : (f < l)%nat).
    { destruct (lt_eq_lt_dec f l) as [[C|C]|C]; [exact C| |].
      - exfalso. subst l. apply (not_two_single mask f F La Two).
      - exfalso. apply (proj2 F l C). apply La. }
    destruct (lt_eq_lt_dec i f) as [[C|C]|C].
    + destruct (Ends i Hi (or_introl C)) as (v & Ev & Qv). exists v. split; [exact Ev|]. rewrite Qv. apply On; auto; [apply F|apply La].
    + subst i. exfalso. apply Ni. apply F.
    + destruct (lt_eq_lt_dec i l) as [[H|H]|H].
      * (* inside: nearest defined neighbours *)
        assert (exists a, (a < i)%nat /\ defined_at mask a /\ forall k, (a < k <= i)%nat -> ~ defined_at mask k) as (a & Ha & Da & Na).
        { clear - C F Ni. induction i as [|i IH]; [lia|]. destruct (defined_dec mask i) as [Di|Nd].
          - exists i. split; [lia|]. split; [exact Di|]. intros k Hk. assert (k = S i) by lia. subst k. exact Ni.
          - destruct (Nat.eq_dec f i) as [->|]; [exfalso; apply Nd; apply F|]. destruct IH as (a & Ha & Da & Na); [exact Nd|lia|].
            exists a. split; [lia|]. split; [exact Da|]. intros k Hk. destruct (Nat.eq_dec k (S i)) as [->|]; [exact Ni|apply Na; lia]. }
        assert (exists b, (i < b)%nat /\ defined_at mask b /\ forall k, (i <= k < b)%nat -> ~ defined_at mask k) as (b & Hb & Db & Nb).
        { clear - H La Ni. remember (l - i)%nat as n eqn:Hn. revert i H Ni Hn. induction n as [|n IH]; intros i H Ni Hn; [lia|].
          destruct (defined_dec mask (S i)) as [Ds|Ns].
          - exists (S i). split; [lia|]. split; [exact Ds|]. intros k Hk. assert (k = i) by lia. subst k. exact Ni.
          - destruct (Nat.eq_dec (S i) l) as [<-|]; [exfalso; apply Ns; apply La|].
            destruct (IH (S i)) as (b & Hb & Db & Nb); [lia|exact Ns|lia|]. exists b. split; [lia|]. split; [exact Db|].
            intros k Hk. destruct (Nat.eq_dec k i) as [->|]; [exact Ni|apply Nb; lia]. }
        destruct (nth_error x a) as [xa|] eqn:Ea; [|apply nth_error_None in Ea; apply defined_bool in Da; lia].
        destruct (nth_error x b) as [xb|] eqn:Eb; [|apply nth_error_None in Eb; apply defined_bool in Db; lia].
        destruct (G a i b xa xb) as (v & Ev & Qv); [|exact Ea|exact Eb|].
        { split; [lia|]. split; [exact Da|]. split; [exact Db|]. intros k Hk. destruct (le_lt_dec k i); [apply Na; lia|apply Nb; lia]. }
        exists v. split; [exact Ev|]. rewrite Qv. apply On; auto. lia.
      * subst i. exfalso. apply Ni. apply La.
      * destruct (Ends i Hi (or_intror H)) as (v & Ev & Qv). exists v. split; [exact Ev|]. rewrite Qv. apply On; auto; [apply F|apply La].
Qed.

(** Integers (dates): defined values are kept, and each filled gap value lies between its
    two neighbours and is less than [i - a] units away from the exact interpolation. *)
Theorem C43_line_int : forall x mask, length mask = length x -> two_defined mask ->
  exists y, fill_line_int x mask = Ok (y, map (fun _ => false) mask) /\ length y = length x /\
    (forall i, defined_at mask i -> nth_error y i = nth_error x i) /\
    (forall a i b xa xb, gap mask a i b -> nth_error x a = Some xa -> nth_error x b = Some xb ->
       exists v, nth_error y i = Some v /\ Z.min xa xb <= v <= Z.max xa xb /\
         let n := Z.of_nat b - Z.of_nat a in let k := Z.of_nat i - Z.of_nat a in
         Z.abs ((v - xa) * n - (xb - xa) * k) < n * k).
Proof.
  intros x mask L Two. unfold fill_line_int.
  destruct (fill_line_spec Z Z.add Z.sub Z.mul Z.quot x mask L)
    as [(N & _)|[(d & F & La & _)|(f & l & xf & xl & y & F & La & Lfl & Ef & El & E & Ly & D & G & A & B)]].
  - exfalso. apply (not_two_none _ N Two).
  - exfalso. apply (not_two_single _ d F La Two).
  - exists y. split; [exact E|]. split; [exact Ly|]. split; [exact D|].
    intros a i b xa xb Gp Ea Eb. exists (interp Z Z.add Z.sub Z.mul Z.quot xa xb a i b). split; [apply (G a i b xa xb Gp Ea Eb)|].
    destruct Gp as (H & _). unfold interp. set (n := Z.of_nat b - Z.of_nat a). set (k := Z.of_nat i - Z.of_nat a).
    assert (Hn : 0 < k < n) by lia. clearbody n k. cbv zeta.
    pose proof (Z.quot_rem' (xb - xa) n) as Q. pose proof (Z.rem_bound_abs (xb - xa) n ltac:(lia)) as Rb.
    set (q := Z.quot (xb - xa) n) in *. set (r := Z.rem (xb - xa) n) in *.
    assert (S : 0 <= xb - xa -> 0 <= r) by (intro; apply Z.rem_nonneg; lia).
    assert (S' : xb - xa <= 0 -> r <= 0) by (intro; apply Z.rem_nonpos; lia).
    clearbody q r. split.
    + destruct (Z.le_ge_cases 0 (xb - xa)) as [P|P].
      * specialize (S P). assert (0 <= q) by nia. assert (q * k <= q * n) by nia. nia.
      * specialize (S' ltac:(lia)). assert (q <= 0) by nia. assert (q * n <= q * k) by nia. nia.
    + replace ((q * k + xa - xa) * n - (xb - xa) * k) with (- (r * k)) by (rewrite Q; ring). rewrite Z.abs_opp, Z.abs_mul. nia.
Qed.
Example C43_line_int_ex : fill_line_int [100; 0; 0; 110] [false; true; true; false] = Ok ([100; 103; 106; 110], repeat false 4).
Proof. reflexivity. Qed.

(** [fill.vector] on dates with its documented default (the largest int64) recognises no
    missing value at all: the array is returned unchanged. *)
Theorem C43_vector_default_fill_refuted : forall x, fill_vector_int x (2 ^ 63 - 1) = Ok x.
Proof.
  intro x. unfold fill_vector_int. destruct (Z.eq_dec (Z.of_nat (length x)) 0) as [E0|N0].
  { destruct x; [reflexivity|cbn in E0; lia]. }
  assert (M : forall i, (i < length x)%nat -> defined_at (map (fun _ : Z => false) x) i).
  { intros i Hi. unfold defined_at. rewrite nth_error_map. destruct (nth_error x i) eqn:E; [reflexivity|apply nth_error_None in E; lia]. }
  unfold vector_mask_int. rewrite Z.eqb_refl. unfold fill_line_int.
  destruct (fill_line_spec Z Z.add Z.sub Z.mul Z.quot x (map (fun _ => false) x) (map_length _ _))
    as [(N & E)|[(d & F & La & E)|(f & l & xf & xl & y & F & La & Lfl & Ef & El & E & Ly & D & _)]]; rewrite E; cbn [obind fst]; try reflexivity.
  f_equal. apply list_eq_nth. intro i. destruct (lt_dec i (length x)) as [H|H]; [apply D; apply M; exact H|].
  rewrite (proj2 (nth_error_None y i)), (proj2 (nth_error_None x i)); [reflexivity|lia|lia].
Qed.
(** Any other fill value is recognised. *)
Theorem C43_vector_fill : forall x fv, fv <> 2 ^ 63 - 1 ->
  exists y m, fill_line_int x (map (fun v => v =? fv) x) = Ok (y, m) /\ fill_vector_int x fv = Ok y /\
    forall i v, nth_error x i = Some v -> v <> fv -> nth_error y i = Some v.
Proof.
  intros x fv H. destruct (fill_line_total Z Z.add Z.sub Z.mul Z.quot x (map (fun v => v =? fv) x) (map_length _ _)) as (y & b & E & L).
  exists y, (map (fun _ => b) (map (fun v => v =? fv) x)). split; [exact E|]. unfold fill_vector_int, vector_mask_int.
  destruct (Z.eqb_spec fv (2 ^ 63 - 1)); [contradiction|]. unfold fill_line_int. rewrite E. split; [reflexivity|].
  intros i v Ei Nv. destruct (fill_line_spec Z Z.add Z.sub Z.mul Z.quot x (map (fun v => v =? fv) x) (map_length _ _))
    as [(N & E')|[(d & F & La & E')|(f & l & xf & xl & y' & F & La & Lfl & Ef & El & E' & Ly & D & _)]];
    assert (EY : Ok (y, map (fun _ => b) (map (fun v => v =? fv) x)) = _) by (rewrite <- E, E'; reflexivity).
  - assert (y = x) by congruence. subst y. exact Ei.
  - assert (y = x) by congruence. subst y. exact Ei.
  - assert (y = y') by congruence. subst y'. rewrite D; [exact Ei|]. unfold defined_at. rewrite nth_error_map, Ei. cbn. f_equal. apply Z.eqb_neq. exact Nv.
Qed.

(** ** C44 *)
Lemma nth_error_map_seq : forall A (f : nat -> A) n i, (i < n)%nat -> nth_error (map f (seq 0 n)) i = Some (f i).
Proof. intros A f n i H. rewrite nth_error_map. rewrite nth_error_nth' with (d := 0%nat) by (rewrite seq_length; lia). rewrite seq_nth by lia. reflexivity. Qed.
Lemma defined_map_seq : forall (f : nat -> bool) n i, defined_at (map f (seq 0 n)) i <-> (i < n)%nat /\ f i = false.
Proof.
  intros f n i. unfold defined_at. split.
  - intro H. assert (L : (i < n)%nat). { assert (nth_error (map f (seq 0 n)) i <> None) by congruence. apply nth_error_Some in H0. rewrite map_length, seq_length in H0. exact H0. }
    split; [exact L|]. rewrite nth_error_map_seq in H by exact L. congruence.
  - intros [L H]. rewrite nth_error_map_seq by exact L. congruence.
Qed.
Lemma row_two_iff : forall m nc i, row_two_defined m nc i <-> two_defined (map (m i) (seq 0 nc)).
Proof.
  intros m nc i. split.
  - intros (a & b & H & A & B). exists a, b. split; [lia|]. split; apply defined_map_seq; split; auto; lia.
  - intros (a & b & H & A & B). apply defined_map_seq in A, B. exists a, b. split; [lia|]. tauto.
Qed.
Lemma row_two_dec : forall m nc i, {row_two_defined m nc i} + {~ row_two_defined m nc i}.
Proof.
  intros m nc i.
  assert (D : forall n, {exists a, (a < n)%nat /\ m i a = false} + {~ exists a, (a < n)%nat /\ m i a = false}).
  { induction n as [|n IH]; [right; intros (a & H & _); lia|]. destruct (m i n) eqn:E.
    - destruct IH as [IH|IH]; [left; destruct IH as (a & H & G); exists a; split; [lia|exact G]|right; intros (a & H & G)].
      destruct (Nat.eq_dec a n) as [->|]; [congruence|apply IH; exists a; split; [lia|exact G]].
    - left. exists n. split; [lia|exact E]. }
  induction nc as [|n IH]; [right; intros (a & b & H & _); lia|]. destruct IH as [IH|IH].
  - left. destruct IH as (a & b & H & G). exists a, b. split; [lia|exact G].
  - destruct (m i n) eqn:E.
    + right. intros (a & b & H & A & B). apply IH. exists a, b. split; [|auto]. assert (b <> n) by congruence. lia.
    + destruct (D n) as [Y|N].
      * left. destruct Y as (a & H & A). exists a, n. split; [lia|auto].
      * right. intros (a & b & H & A & B). destruct (Nat.eq_dec b n) as [->|]; [apply N; exists a; split; [lia|exact A]|apply IH; exists a, b; split; [lia|auto]].
Qed.

Lemma map_false_repeat : forall A (l : list A), map (fun _ => false) l = repeat false (length l).
Proof. induction l; cbn; congruence. Qed.

Lemma rows_then_cols : forall nr nc s, exists s1 s2, fill_matrix_double nr nc s = Ok s2 /\
  (forall i, (i < nr)%nat -> row_two_defined (mm Q s) nc i ->
     (exists y, fill_line_double (map (mx Q s i) (seq 0 nc)) (map (mm Q s i) (seq 0 nc)) = Ok (y, repeat false nc) /\
        forall j, (j < nc)%nat -> nth_error y j = Some (mx Q s1 i j)) /\
     forall j, (j < nc)%nat -> mm Q s1 i j = false) /\
  (forall i, (i < nr)%nat -> ~ row_two_defined (mm Q s) nc i ->
     forall j, (j < nc)%nat -> mx Q s1 i j = mx Q s i j /\ mm Q s1 i j = true) /\
  (forall j, (j < nc)%nat -> fill_line_double (map (fun i => mx Q s1 i j) (seq 0 nr)) (map (fun i => mm Q s1 i j) (seq 0 nr)) =
     Ok (map (fun i => mx Q s2 i j) (seq 0 nr), map (fun i => mm Q s2 i j) (seq 0 nr))).
Proof.
  intros nr nc s. unfold fill_matrix_double, fill_line_double.
  destruct (matrix_ok Q Qplus Qminus (fun a n => (a * inject_Z n)%Q) (fun a n => (a / inject_Z n)%Q) 0%Q nr nc s) as (s1 & s2 & E & R & C).
  exists s1, s2. split; [exact E|]. split; [|split; [|exact C]].
  - intros i Hi Two. apply row_two_iff in Two. specialize (R i Hi).
    destruct (C43_line (map (mx Q s i) (seq 0 nc)) (map (mm Q s i) (seq 0 nc))) as (y & f & l & xf & xl & Ey & Ly & _); [rewrite !map_length; reflexivity|exact Two|].
    unfold fill_line_double in Ey. assert (Y : Ok (y, map (fun _ => false) (map (mm Q s i) (seq 0 nc))) = Ok (map (mx Q s1 i) (seq 0 nc), map (mm Q s1 i) (seq 0 nc))) by (rewrite <- Ey; exact R).
    split.
    + exists y. split; [rewrite Ey, map_false_repeat, map_length, seq_length; reflexivity|]. intros j Hj.
      assert (y = map (mx Q s1 i) (seq 0 nc)) by congruence. subst y. apply nth_error_map_seq. exact Hj.
    + intros j Hj. assert (M : map (fun _ => false) (map (mm Q s i) (seq 0 nc)) = map (mm Q s1 i) (seq 0 nc)) by congruence.
      assert (G : nth_error (map (mm Q s1 i) (seq 0 nc)) j = Some false).
      { rewrite <- M, map_map. apply (nth_error_map_seq _ (fun _ => false)). exact Hj. }
      rewrite nth_error_map_seq in G by exact Hj. congruence.
  - intros i Hi Two j Hj. rewrite row_two_iff in Two. specialize (R i Hi).
    pose proof (C43_line_too_few (map (mx Q s i) (seq 0 nc)) (map (mm Q s i) (seq 0 nc)) (msl _ _ _ _ _) Two) as Ey.
    unfold fill_line_double in Ey.
    assert (Y : Ok (map (mx Q s i) (seq 0 nc), map (fun _ => true) (map (mm Q s i) (seq 0 nc))) = Ok (map (mx Q s1 i) (seq 0 nc), map (mm Q s1 i) (seq 0 nc))) by (rewrite <- Ey; exact R).
    assert (A : map (mx Q s i) (seq 0 nc) = map (mx Q s1 i) (seq 0 nc)) by congruence.
    assert (B : map (fun _ => true) (map (mm Q s i) (seq 0 nc)) = map (mm Q s1 i) (seq 0 nc)) by congruence.
    split.
    + assert (G : nth_error (map (mx Q s1 i) (seq 0 nc)) j = Some (mx Q s i j)) by (rewrite <- A; apply nth_error_map_seq; exact Hj).
      rewrite nth_error_map_seq in G by exact Hj. congruence.
    + assert (G : nth_error (map (mm Q s1 i) (seq 0 nc)) j = Some true).
      { rewrite <- B, map_map. apply (nth_error_map_seq _ (fun _ => true)). exact Hj. }
      rewrite nth_error_map_seq in G by exact Hj. congruence.
Qed.
Lemma col_defined_kept : forall x mask y m, length mask = length x -> fill_line_double x mask = Ok (y, m) ->
  forall i, defined_at mask i -> nth_error y i = nth_error x i.
Proof.
  intros x mask y m L E i D. 
  destruct (fill_line_spec Q Qplus Qminus (fun a n => (a * inject_Z n)%Q) (fun a n => (a / inject_Z n)%Q) x mask L)
    as [(N & E')|[(d & F & La & E')|(f & l & xf & xl & y' & F & La & Lfl & Ef & El & E' & Ly & D' & _)]]; unfold fill_line_double in E; rewrite E' in E.
  - assert (y = x) by congruence. subst y. reflexivity.
  - assert (y = x) by congruence. subst y. reflexivity.
  - assert (y = y') by congruence. subst y'. apply D'. exact D.
Qed.

(** A row with at least two defined values ends up exactly as the row pass fills it. *)
Theorem C44_matrix_rows : forall nr nc s, exists s', fill_matrix_double nr nc s = Ok s' /\
  forall i, (i < nr)%nat -> row_two_defined (mm Q s) nc i ->
    exists y, fill_line_double (map (mx Q s i) (seq 0 nc)) (map (mm Q s i) (seq 0 nc)) = Ok (y, repeat false nc) /\
      forall j, (j < nc)%nat -> nth_error y j = Some (mx Q s' i j).
Proof.
  intros nr nc s. destruct (rows_then_cols nr nc s) as (s1 & s2 & E & R & _ & C). exists s2. split; [exact E|].
  intros i Hi Two. destruct (R i Hi Two) as ((y & Ey & Hy) & Mk). exists y. split; [exact Ey|]. intros j Hj.
  rewrite (Hy j Hj). f_equal. pose proof (col_defined_kept _ _ _ _ (msl _ _ _ _ _) (C j Hj) i) as K.
  rewrite !nth_error_map_seq in K by exact Hi. assert (Some (mx Q s2 i j) = Some (mx Q s1 i j)); [|congruence].
  apply K. apply defined_map_seq. split; [exact Hi|]. apply Mk. exact Hj.
Qed.

(** Cells defined in the input keep their value if their row has at least two defined
    cells. (Missing from the full property: rows with a single defined cell, which
    [C44_single_defined_refuted] shows may be overwritten.) *)
Theorem C44_matrix_preserves_partial : forall nr nc s, exists s', fill_matrix_double nr nc s = Ok s' /\
  forall i j, (i < nr)%nat -> (j < nc)%nat -> row_two_defined (mm Q s) nc i -> mm Q s i j = false -> mx Q s' i j = mx Q s i j.
Proof.
  intros nr nc s. destruct (C44_matrix_rows nr nc s) as (s' & E & H). exists s'. split; [exact E|].
  intros i j Hi Hj Two D. destruct (H i Hi Two) as (y & Ey & Hy). specialize (Hy j Hj).
  rewrite (col_defined_kept _ _ _ _ (msl _ _ _ _ _) Ey j) in Hy by (apply defined_map_seq; auto).
  rewrite nth_error_map_seq in Hy by exact Hj. congruence.
Qed.

(** When two rows have two defined values, every cell of the matrix becomes defined, and
    the remaining rows depend only on those rows (column interpolation between the two
    nearest such rows). *)
Theorem C44_matrix_complete : forall nr nc s r1 r2, (r1 < r2 < nr)%nat ->
  row_two_defined (mm Q s) nc r1 -> row_two_defined (mm Q s) nc r2 ->
  exists s', fill_matrix_double nr nc s = Ok s' /\
    (forall i j, (i < nr)%nat -> (j < nc)%nat -> mm Q s' i j = false) /\
    (forall a i b j, (a < i < b)%nat -> (b < nr)%nat -> (j < nc)%nat ->
       row_two_defined (mm Q s) nc a -> row_two_defined (mm Q s) nc b ->
       (forall k, (a < k < b)%nat -> ~ row_two_defined (mm Q s) nc k) ->
       (mx Q s' i j == on_line (mx Q s' a j) (mx Q s' b j) a i b)%Q).
Proof.
  intros nr nc s r1 r2 H T1 T2. destruct (rows_then_cols nr nc s) as (s1 & s2 & E & R & NR & C). exists s2. split; [exact E|].
  assert (Two : forall j, (j < nc)%nat -> two_defined (map (fun i => mm Q s1 i j) (seq 0 nr))).
  { intros j Hj. exists r1, r2. split; [lia|]. split; apply defined_map_seq; (split; [lia|]); apply R; auto; lia. }
  split.
  - intros i j Hi Hj. destruct (C43_line (map (fun i => mx Q s1 i j) (seq 0 nr)) _ (msl _ _ _ _ _) (Two j Hj)) as (y & f & l & xf & xl & Ey & _).
    assert (Y : Ok (y, map (fun _ => false) (map (fun i => mm Q s1 i j) (seq 0 nr))) = Ok (map (fun i => mx Q s2 i j) (seq 0 nr), map (fun i => mm Q s2 i j) (seq 0 nr))) by (rewrite <- (C j Hj); symmetry; exact Ey).
    assert (B : map (fun _ => false) (map (fun i => mm Q s1 i j) (seq 0 nr)) = map (fun i => mm Q s2 i j) (seq 0 nr)) by congruence.
    assert (G : nth_error (map (fun i => mm Q s2 i j) (seq 0 nr)) i = Some false).
    { rewrite <- B, map_map. apply (nth_error_map_seq _ (fun _ => false)). exact Hi. }
    rewrite nth_error_map_seq in G by exact Hi. congruence.
  - intros a i b j Hi Hb Hj Ta Tb Nb.
    destruct (C43_line (map (fun i => mx Q s1 i j) (seq 0 nr)) _ (msl _ _ _ _ _) (Two j Hj)) as (y & f & l & xf & xl & Ey & Ly & _ & _ & _ & _ & D & G & _).
    rewrite (C j Hj) in Ey. assert (y = map (fun i => mx Q s2 i j) (seq 0 nr)) by congruence. subst y.
    assert (Da : defined_at (map (fun i => mm Q s1 i j) (seq 0 nr)) a) by (apply defined_map_seq; split; [lia|apply R; auto; lia]).
    assert (Db : defined_at (map (fun i => mm Q s1 i j) (seq 0 nr)) b) by (apply defined_map_seq; split; [lia|apply R; auto; lia]).
    destruct (G a i b (mx Q s1 a j) (mx Q s1 b j)) as (v & Ev & Qv).
    + split; [exact Hi|]. split; [exact Da|]. split; [exact Db|]. intros k Hk Dk. apply defined_map_seq in Dk. destruct Dk as [Lk Mk].
      destruct (NR k Lk (Nb k Hk) j Hj) as [_ M]. congruence.
    + apply (nth_error_map_seq _ (fun i => mx Q s1 i j)); lia.
    + apply (nth_error_map_seq _ (fun i => mx Q s1 i j)); lia.
    + rewrite nth_error_map_seq in Ev by lia. assert (v = mx Q s2 i j) by congruence. subst v.
      pose proof (D a Da) as Ka. pose proof (D b Db) as Kb. rewrite !nth_error_map_seq in Ka, Kb by lia.
      assert (Ka' : mx Q s2 a j = mx Q s1 a j) by congruence. assert (Kb' : mx Q s2 b j = mx Q s1 b j) by congruence.
      rewrite Ka', Kb'. exact Qv.
Qed.

(** With at most one such row nothing outside it is changed. *)
Theorem C44_matrix_too_few : forall nr nc s, (forall r1 r2, (r1 < r2 < nr)%nat -> row_two_defined (mm Q s) nc r1 -> ~ row_two_defined (mm Q s) nc r2) ->
  exists s', fill_matrix_double nr nc s = Ok s' /\
    forall i j, (i < nr)%nat -> (j < nc)%nat -> ~ row_two_defined (mm Q s) nc i -> mx Q s' i j = mx Q s i j.
Proof.
  intros nr nc s H. destruct (rows_then_cols nr nc s) as (s1 & s2 & E & R & NR & C). exists s2. split; [exact E|].
  intros i j Hi Hj Two. destruct (NR i Hi Two j Hj) as [X _].
  assert (NT : ~ two_defined (map (fun i => mm Q s1 i j) (seq 0 nr))).
  { intros (a & b & Hab & Da & Db). apply defined_map_seq in Da, Db. destruct Da as [La Ma], Db as [Lb Mb].
    assert (Ta : row_two_defined (mm Q s) nc a). { destruct (row_two_dec (mm Q s) nc a) as [T|T]; [exact T|]. destruct (NR a La T j Hj). congruence. }
    assert (Tb : row_two_defined (mm Q s) nc b). { destruct (row_two_dec (mm Q s) nc b) as [T|T]; [exact T|]. destruct (NR b Lb T j Hj). congruence. }
    apply (H a b); auto. }
  pose proof (C43_line_too_few (map (fun i => mx Q s1 i j) (seq 0 nr)) _ (msl _ _ _ _ _) NT) as Ey. rewrite (C j Hj) in Ey.
  assert (A : map (fun i => mx Q s2 i j) (seq 0 nr) = map (fun i => mx Q s1 i j) (seq 0 nr)) by congruence.
  assert (G : nth_error (map (fun i => mx Q s2 i j) (seq 0 nr)) i = Some (mx Q s1 i j)) by (rewrite A; apply (nth_error_map_seq _ (fun i => mx Q s1 i j)); exact Hi).
  rewrite nth_error_map_seq in G by exact Hi. congruence.
Qed.

(** The full property fails: here cell (1, 0) is defined (100), alone in its row, and the
    column pass replaces it by 1. *)
Definition single_cell : mstate Q :=
  MState Q (fun i j => if Nat.eqb i 1 then (if Nat.eqb j 0 then 100 else 0) else if Nat.eqb i 0 then 0 else 2)%Q
         (fun i j => Nat.eqb i 1 && Nat.eqb j 1).
Theorem C44_single_defined_refuted : exists s', fill_matrix_double 3 2 single_cell = Ok s' /\
  mm Q single_cell 1 0 = false /\ (mx Q single_cell 1 0 == 100)%Q /\ (mx Q s' 1 0 == 1)%Q.
Proof.
  assert (V : match fill_matrix_double 3 2 single_cell with Ok s' => Qeq_bool (mx Q s' 1 0) 1 | _ => false end = true) by (vm_compute; reflexivity).
  destruct (fill_matrix_double 3 2 single_cell) as [s'|w|w]; try discriminate. exists s'. split; [reflexivity|]. split; [reflexivity|].
  split; [reflexivity|]. apply Qeq_bool_eq. exact V.
Qed.
Example C44_rows_ex : row_two_defined (mm Q single_cell) 2 0 /\ row_two_defined (mm Q single_cell) 2 2 /\ ~ row_two_defined (mm Q single_cell) 2 1.
Proof.
  split; [exists 0%nat, 1%nat; repeat split; lia|]. split; [exists 0%nat, 1%nat; repeat split; lia|].
  intros (a & b & H & A & B). assert (a = 0%nat /\ b = 1%nat) as [-> ->] by lia. discriminate.
Qed.

(** ** C47 *)

(** Window indexes on a non-angular axis with at least two values are reflected about both
    ends, hence always valid. *)
Theorem C47_frame_reflect : forall index size frame_size r, 2 <= size -> 0 <= frame_size ->
  frame_index index size false frame_size = Ok r ->
  length r = Z.to_nat frame_size /\
  forall k v, nth_error r k = Some v ->
    v = mirror size (index - Z.quot frame_size 2 + Z.of_nat k) /\ 0 <= v < size.
Proof.
  assert (One : forall index size center ix, 2 <= size -> frame_one index size center ix false = Ok (mirror size (index - center + ix))
     /\ 0 <= mirror size (index - center + ix) < size).
  { intros index size center ix Hs. unfold frame_one, mirror. set (i := index - center + ix).
    pose proof (Z.mod_pos_bound i (2 * (size - 1)) ltac:(lia)) as B.
    assert (Range : 0 <= (if i mod (2 * (size - 1)) <? size then i mod (2 * (size - 1)) else 2 * (size - 1) - i mod (2 * (size - 1))) < size).
    { destruct (Z.ltb_spec (i mod (2 * (size - 1))) size); lia. }
    split; [|exact Range]. destruct ((i <? 0) || (size <=? i)) eqn:Out.
    - destruct (Z.eqb_spec ((size - 1) * 2) 0); [lia|]. rewrite rem_int_mod by lia. rewrite (Z.mul_comm (size - 1) 2).
      set (w := i mod (2 * (size - 1))) in *. clearbody w. destruct (Z.leb_spec size w) as [G|G]; destruct (Z.ltb_spec w size) as [G'|G']; try lia.
      + rewrite rem_int_mod by lia. f_equal. rewrite <- (Z_mod_plus_full w (-1) size). rewrite Z.mod_small by lia. lia.
      + rewrite rem_int_small by lia. reflexivity.
    - apply orb_false_iff in Out. destruct Out as [O1 O2]. apply Z.ltb_ge in O1. apply Z.leb_gt in O2. rewrite Z.mod_small by lia.
      destruct (Z.ltb_spec i size); [reflexivity|lia]. }
  intros index size fs r Hs Hf. unfold frame_index. set (c := Z.quot fs 2). clearbody c.
  assert (Gen : forall l r, frame_list index size c l false = Ok r -> length r = length l /\
     forall k v, nth_error r k = Some v -> exists ix, nth_error l k = Some ix /\ v = mirror size (index - c + ix) /\ 0 <= v < size).
  { induction l as [|ix l IH]; intros r' E; cbn [frame_list] in E.
    - assert (r' = []) by congruence. subst r'. split; [reflexivity|]. intros [|k] v H; discriminate.
    - destruct (One index size c ix Hs) as [E1 R1]. rewrite E1 in E. cbn [obind] in E.
      destruct (frame_list index size c l false) as [t|w|w] eqn:Et; cbn [obind] in E; try discriminate.
      destruct (IH t eq_refl) as [IL IN]. assert (r' = mirror size (index - c + ix) :: t) by congruence. subst r'.
      split; [cbn; lia|]. intros [|k] v H; cbn in H.
      + exists ix. split; [reflexivity|]. assert (v = mirror size (index - c + ix)) by congruence. subst v. auto.
      + apply IN. exact H. }
  intro E. destruct (Gen _ _ E) as [L N]. rewrite map_length, seq_length in L. split; [exact L|].
  intros k v H. destruct (N k v H) as (ix & Ei & Hv). rewrite nth_error_map in Ei.
  assert (k < Z.to_nat fs)%nat. { rewrite <- L. apply nth_error_Some. congruence. }
  rewrite nth_error_nth' with (d := 0%nat) in Ei by (rewrite seq_length; lia). rewrite seq_nth in Ei by lia. cbn in Ei.
  assert (ix = Z.of_nat k) by congruence. subst ix. exact Hv.
Qed.

(** The reflection is the standard one: it keeps indexes of the axis and is invariant by
    mirroring at either end. *)
Theorem C47_mirror_spec : forall size i, 2 <= size ->
  (0 <= i < size -> mirror size i = i) /\ mirror size (- i) = mirror size i /\
  mirror size (2 * (size - 1) - i) = mirror size i.
Proof.
  intros size i Hs. unfold mirror. set (P := 2 * (size - 1)). assert (HP : 0 < P) by lia.
  split; [|assert (N : (if (- i) mod P <? size then (- i) mod P else P - (- i) mod P) = (if i mod P <? size then i mod P else P - i mod P))].
  - intro H. rewrite Z.mod_small by lia. destruct (Z.ltb_spec i size); lia.
  - pose proof (Z.mod_pos_bound i P HP). destruct (Z.eq_dec (i mod P) 0) as [E|E].
    + rewrite (Z_mod_zero_opp_full _ _ E), E. reflexivity.
    + rewrite (Z_mod_nz_opp_full _ _ E). destruct (Z.ltb_spec (P - i mod P) size); destruct (Z.ltb_spec (i mod P) size); lia.
  - split; [exact N|]. replace (P - i) with (- i + 1 * P) by ring. rewrite Z_mod_plus_full. exact N.
Qed.
(** On an angular axis indexes wrap around. *)
Theorem C47_frame_wrap : forall index size frame_size r, 1 <= size -> 0 <= frame_size ->
  frame_index index size true frame_size = Ok r ->
  length r = Z.to_nat frame_size /\
  forall k v, nth_error r k = Some v -> v = (index - Z.quot frame_size 2 + Z.of_nat k) mod size /\ 0 <= v < size.
Proof.
  intros index size fs r Hs Hf. unfold frame_index. set (c := Z.quot fs 2). clearbody c.
  assert (Gen : forall l r, frame_list index size c l true = Ok r -> length r = length l /\
     forall k v, nth_error r k = Some v -> exists ix, nth_error l k = Some ix /\ v = (index - c + ix) mod size).
  { induction l as [|ix l IH]; intros r' E; cbn [frame_list] in E.
    - assert (r' = []) by congruence. subst r'. split; [reflexivity|]. intros [|k] v H; discriminate.
    - unfold frame_one in E at 1. destruct (Z.eqb_spec size 0); [lia|]. cbn [obind] in E.
      destruct (frame_list index size c l true) as [t|w|w] eqn:Et; cbn [obind] in E; try discriminate.
      destruct (IH t eq_refl) as [IL IN]. rewrite rem_int_mod in E by lia. assert (r' = (index - c + ix) mod size :: t) by congruence. subst r'.
      split; [cbn; lia|]. intros [|k] v H; cbn in H.
      + exists ix. split; [reflexivity|]. congruence.
      + apply IN. exact H. }
  intro E. destruct (Gen _ _ E) as [L N]. rewrite map_length, seq_length in L. split; [exact L|].
  intros k v H. destruct (N k v H) as (ix & Ei & Hv). rewrite nth_error_map in Ei.
  assert (k < Z.to_nat fs)%nat. { rewrite <- L. apply nth_error_Some. congruence. }
  rewrite nth_error_nth' with (d := 0%nat) in Ei by (rewrite seq_length; lia). rewrite seq_nth in Ei by lia. cbn in Ei.
  assert (ix = Z.of_nat k) by congruence. subst ix. split; [exact Hv|]. rewrite Hv. apply Z.mod_pos_bound. lia.
Qed.
(** No index computation fails for these sizes. *)
Theorem C47_frame_total : forall index size (is_angle : bool) frame_size, (if is_angle then 1 <= size else 2 <= size) ->
  exists r, frame_index index size is_angle frame_size = Ok r.
Proof.
  intros index size a fs H. unfold frame_index. generalize (map Z.of_nat (seq 0 (Z.to_nat fs))) as l.
  induction l as [|ix l (r & IH)]; [eexists; reflexivity|]. cbn [frame_list]. rewrite IH.
  assert (exists v, frame_one index size (Z.quot fs 2) ix a = Ok v) as (v & ->).
  { unfold frame_one. destruct a.
    - destruct (Z.eqb_spec size 0); [lia|eauto].
    - destruct ((index - Z.quot fs 2 + ix <? 0) || (size <=? index - Z.quot fs 2 + ix)); [|eauto].
      destruct (Z.eqb_spec ((size - 1) * 2) 0); [lia|]. destruct (size <=? _); eauto. }
  cbn [obind]. eauto.
Qed.
Example C47_frame_ex : frame_index 0 4 false 5 = Ok [2; 1; 0; 1; 2] /\ frame_index 0 4 true 5 = Ok [2; 3; 0; 1; 2] /\
  frame_index 3 4 false 15 = Ok [2; 3; 2; 1; 0; 1; 2; 3; 2; 1; 0; 1; 2; 3; 2].
Proof. repeat split. Qed.
(** On an axis of one value any window with more than one index divides by zero. *)
Theorem C47_frame_single_refuted : forall frame_size, 2 <= frame_size -> exists w, frame_index 0 1 false frame_size = UB w.
Proof.
  intros fs H. unfold frame_index.
  assert (G : forall l c, (exists ix, In ix l /\ (- c + ix < 0 \/ 1 <= - c + ix)) -> exists w, frame_list 0 1 c l false = UB w).
  { induction l as [|ix l IH]; intros c (iy & I & O); [destruct I|]. cbn [frame_list].
    unfold frame_one at 1. destruct ((0 - c + ix <? 0) || (1 <=? 0 - c + ix)) eqn:Out; [eexists; reflexivity|].
    cbn [obind]. apply orb_false_iff in Out. destruct Out as [O1 O2]. apply Z.ltb_ge in O1. apply Z.leb_gt in O2.
    destruct (IH c) as (w & E); [|rewrite E; eexists; reflexivity]. exists iy. split; [|exact O]. destruct I as [->|I]; [lia|exact I]. }
  apply G. exists 0. split.
  - apply in_map_iff. exists 0%nat. split; [reflexivity|]. apply in_seq. lia.
  - left. pose proof (Z.quot_div_nonneg fs 2 ltac:(lia) ltac:(lia)). Z.div_mod_to_equations. lia.
Qed.
