(** Proofs about the passes of an orbit: start times, durations, iteration. *)
From Verif Require Import Base BaseProofs MathModel OrbitModel OrbitSpec OrbitProofs.
From Coq Require Import Sorted Lqa ZifyBool Permutation.
Open Scope Z_scope.

(** ** Sorting *)
Lemma insert_z_le x l : Forall (fun y => x <= y) l -> insert_z x l = x :: l.
Proof.
  destruct l as [|h t]; intro F; [reflexivity|]. inversion F; subst. simpl.
  destruct (Z.leb_spec x h); [reflexivity|lia].
Qed.

Lemma sort_z_id l : StronglySorted Z.lt l -> sort_z l = l.
Proof.
  induction 1 as [|a l S IH F]; [reflexivity|]. unfold sort_z in *. simpl. rewrite IH.
  apply insert_z_le. eapply Forall_impl; [|exact F]. simpl. intros. lia.
Qed.

Lemma take_sorted time idx :
  increasing time -> StronglySorted lt idx -> (forall i, In i idx -> (i < length time)%nat) ->
  StronglySorted Z.lt (take 0 time idx).
Proof.
  intros I S. induction S as [|a l S IH F]; intro H; simpl; constructor.
  - apply IH. intros; apply H; now right.
  - apply Forall_forall. intros t Ht. apply in_map_iff in Ht. destruct Ht as [j [<- Hj]].
    rewrite Forall_forall in F. apply I; [apply F; auto|]. apply H. now right.
Qed.

Lemma turns_sorted lat : StronglySorted lt (turns lat).
Proof. apply where_sorted. Qed.

Lemma turns_lt lat i : In i (turns lat) -> (i < length lat)%nat.
Proof. rewrite turns_In. tauto. Qed.

(** The indexes at which the passes start. *)
Definition starts (lat : list Q) : list nat := 0%nat :: tl (turns lat).

Lemma starts_sorted lat : StronglySorted lt (starts lat).
Proof.
  unfold starts. pose proof (turns_sorted lat) as S. destruct (turns lat) as [|a l]; simpl.
  - repeat constructor.
  - inversion S as [|? ? S' F]; subst. constructor; auto.
    eapply Forall_impl; [|exact F]. simpl; intros; lia.
Qed.

Lemma starts_lt lat i : (0 < length lat)%nat -> In i (starts lat) -> (i < length lat)%nat.
Proof.
  intros H [<-|Hi]; auto. apply turns_lt. destruct (turns lat); [inversion Hi|now right].
Qed.

Lemma build_inv lon lat time x o :
  build_orbit lon lat time x = Ok o ->
  exists a l, turns lat = a :: l /\
  o = mk_orbit lon lat (sort_z (take 0 time (starts lat))) time x.
Proof.
  unfold build_orbit, calculate_pass_time, starts.
  destruct (turns lat) as [|a l]; simpl; [discriminate|]. intros [= <-]. eauto.
Qed.

Lemma turns_nonempty_length lat a l : turns lat = a :: l -> (0 < length lat)%nat.
Proof.
  intro E. assert (H : In a (turns lat)) by (rewrite E; now left). apply turns_lt in H. lia.
Qed.

Lemma build_pass_time lon lat time x o :
  build_orbit lon lat time x = Ok o -> length time = length lat -> increasing time ->
  o_pass_time o = take 0 time (starts lat) /\ o_time o = time /\ o_lat o = lat /\
  o_lon o = lon /\ o_x_al o = x /\ (0 < length lat)%nat.
Proof.
  intros B L I. destruct (build_inv _ _ _ _ _ B) as [a [l [E ->]]].
  cbn [o_pass_time o_time o_lat o_lon o_x_al]. pose proof (turns_nonempty_length _ _ _ E) as N. repeat split; auto.
  apply sort_z_id. apply take_sorted; auto using starts_sorted.
  intros i Hi. rewrite L. apply starts_lt; auto.
Qed.

Lemma build_sorted lon lat time x o :
  build_orbit lon lat time x = Ok o -> length time = length lat -> increasing time ->
  StronglySorted Z.lt (o_pass_time o).
Proof.
  intros B L I. destruct (build_pass_time _ _ _ _ _ B L I) as [-> [_ [_ [_ [_ N]]]]].
  apply take_sorted; auto using starts_sorted.
  intros i Hi. rewrite L. apply starts_lt; auto.
Qed.

(** ** Indexing *)
Lemma py_nth_pos {A} (l : list A) (i : Z) d :
  0 <= i < zlen l -> py_nth l i = Ok (nth (Z.to_nat i) l d).
Proof.
  unfold py_nth, zlen. intro H. destruct (Z.ltb_spec i 0); [lia|].
  destruct (Z.ltb_spec i 0); [lia|].
  rewrite (nth_error_nth' l d) by lia. reflexivity.
Qed.

Lemma py_nth_neg {A} (l : list A) (i : Z) d :
  - zlen l <= i < 0 -> py_nth l i = Ok (nth (Z.to_nat (i + zlen l)) l d).
Proof.
  unfold py_nth, zlen. intro H. destruct (Z.ltb_spec i 0); [|lia].
  destruct (Z.ltb_spec (i + Z.of_nat (length l)) 0); [lia|].
  rewrite (nth_error_nth' l d) by lia. reflexivity.
Qed.

Lemma py_nth_out {A} (l : list A) (i : Z) :
  (zlen l <= i \/ i < - zlen l) -> py_nth l i = Throw "IndexError".
Proof.
  unfold py_nth, zlen. intro H. destruct (Z.ltb_spec i 0).
  - destruct (Z.ltb_spec (i + Z.of_nat (length l)) 0); [reflexivity|lia].
  - destruct (Z.ltb_spec i 0); [reflexivity|].
    assert (E : nth_error l (Z.to_nat i) = None) by (apply nth_error_None; lia). now rewrite E.
Qed.

Lemma py_nth_last {A} (l : list A) d :
  l <> [] -> py_nth l (-1) = Ok (nth (length l - 1) l d).
Proof.
  intro N. assert (0 < length l)%nat by (destruct l; simpl; [congruence|lia]).
  rewrite (py_nth_neg l (-1) d) by (unfold zlen; lia). do 2 f_equal. unfold zlen. lia.
Qed.

Lemma sorted_nth_lt l i j :
  StronglySorted Z.lt l -> (i < j)%nat -> (j < length l)%nat -> nth i l 0 < nth j l 0.
Proof.
  intro S. revert i j. induction S as [|a l S IH F]; intros i j Hij Hj; [simpl in Hj; lia|].
  destruct j as [|j]; [lia|]. simpl in Hj. destruct i as [|i].
  - simpl. rewrite Forall_forall in F. apply F. apply nth_In. lia.
  - simpl. apply IH; lia.
Qed.

Lemma sorted_nth_le l i j :
  StronglySorted Z.lt l -> (i <= j)%nat -> (j < length l)%nat -> nth i l 0 <= nth j l 0.
Proof.
  intros S H Hj. destruct (Nat.eq_dec i j) as [->|]; [lia|].
  pose proof (sorted_nth_lt l i j S ltac:(lia) Hj). lia.
Qed.

(** ** Durations.  [dur pt time k] is the duration of the pass number [k] (from 1). *)
Definition dur (pt time : list Z) (k : Z) : Z :=
  if k =? zlen pt then nth (length time - 1) time 0 - nth (length pt - 1) pt 0 + nth 1 time 0 - nth 0 time 0
  else nth (Z.to_nat k) pt 0 - nth (Z.to_nat (k - 1)) pt 0.

Lemma pass_duration_dur o k :
  (2 <= length (o_time o))%nat -> 1 <= k <= passes_per_cycle o ->
  pass_duration o k = Ok (dur (o_pass_time o) (o_time o) k).
Proof.
  unfold pass_duration, dur, passes_per_cycle. intros L H.
  destruct (Z.ltb_spec k 1); [lia|]. destruct (Z.ltb_spec (zlen (o_pass_time o)) k); [lia|].
  cbn [orb]. destruct (Z.eqb_spec k (zlen (o_pass_time o))) as [E|E].
  - rewrite (py_nth_last (o_time o) 0) by (intro C; rewrite C in L; simpl in L; lia).
    rewrite (py_nth_last (o_pass_time o) 0) by (intro C; rewrite C in H; unfold zlen in H; simpl in H; lia).
    rewrite (py_nth_pos (o_time o) 1 0) by (unfold zlen; lia).
    rewrite (py_nth_pos (o_time o) 0 0) by (unfold zlen; lia). reflexivity.
  - rewrite (py_nth_pos _ k 0) by lia. rewrite (py_nth_pos _ (k - 1) 0) by lia. reflexivity.
Qed.

Lemma pass_duration_out o k :
  ~ (1 <= k <= passes_per_cycle o) -> pass_duration o k = Throw "ValueError".
Proof.
  unfold pass_duration. intro H. destruct (Z.ltb_spec k 1); [reflexivity|].
  destruct (Z.ltb_spec (passes_per_cycle o) k); [reflexivity|lia].
Qed.

Fixpoint zsum (f : Z -> Z) (from : Z) (n : nat) : Z :=
  match n with O => 0 | S n => f from + zsum f (from + 1) n end.

Lemma zsum_snoc f a n : zsum f a (S n) = zsum f a n + f (a + Z.of_nat n).
Proof.
  revert a; induction n as [|n IH]; intro a.
  - cbn [zsum]. replace (a + Z.of_nat 0) with a by lia. ring.
  - change (zsum f a (S (S n))) with (f a + zsum f (a + 1) (S n)). rewrite IH.
    change (zsum f a (S n)) with (f a + zsum f (a + 1) n).
    replace (a + 1 + Z.of_nat n) with (a + Z.of_nat (S n)) by lia. ring.
Qed.

Lemma dur_partial_sum pt time m :
  (m < length pt)%nat -> zsum (dur pt time) 1 m = nth m pt 0 - nth 0 pt 0.
Proof.
  induction m as [|m IH]; intro H; [simpl; lia|].
  rewrite zsum_snoc, IH by lia. unfold dur, zlen.
  destruct (Z.eqb_spec (1 + Z.of_nat m) (Z.of_nat (length pt))); [lia|].
  replace (Z.to_nat (1 + Z.of_nat m)) with (S m) by lia.
  replace (Z.to_nat (1 + Z.of_nat m - 1)) with m by lia. lia.
Qed.

Lemma dur_sum pt time :
  pt <> [] ->
  zsum (dur pt time) 1 (length pt) =
  nth (length time - 1) time 0 - nth 0 pt 0 + nth 1 time 0 - nth 0 time 0.
Proof.
  intro N. destruct (length pt) as [|m] eqn:E; [destruct pt; [congruence|discriminate]|].
  rewrite zsum_snoc, dur_partial_sum by lia. unfold dur, zlen.
  destruct (Z.eqb_spec (1 + Z.of_nat m) (Z.of_nat (length pt))); [|lia].
  rewrite E. replace (S m - 1)%nat with m by lia. lia.
Qed.

(** Periodic sums. *)
Lemma zsum_ext f g a n : (forall x, a <= x < a + Z.of_nat n -> f x = g x) -> zsum f a n = zsum g a n.
Proof.
  revert a; induction n as [|n IH]; intros a H; [reflexivity|]. simpl.
  rewrite H by lia. f_equal. apply IH. intros x Hx. apply H. lia.
Qed.

Lemma zsum_window f n a :
  (forall x, f (x + Z.of_nat n) = f x) -> zsum f (a + 1) n = zsum f a n.
Proof.
  intro P. destruct n as [|n]; [reflexivity|].
  rewrite zsum_snoc. change (zsum f a (S n)) with (f a + zsum f (a + 1) n).
  replace (a + 1 + Z.of_nat n) with (a + Z.of_nat (S n)) by lia. rewrite P. ring.
Qed.

Lemma zsum_windows f n a b :
  (forall x, f (x + Z.of_nat n) = f x) -> zsum f a n = zsum f b n.
Proof.
  intro P.
  assert (U : forall k c, zsum f (c + Z.of_nat k) n = zsum f c n).
  { induction k as [|k IH]; intro c; [f_equal; lia|].
    replace (c + Z.of_nat (S k)) with (c + Z.of_nat k + 1) by lia. rewrite zsum_window; auto. }
  destruct (Z_le_dec a b).
  - replace b with (a + Z.of_nat (Z.to_nat (b - a))) by lia. now rewrite U.
  - replace a with (b + Z.of_nat (Z.to_nat (a - b))) by lia. now rewrite U.
Qed.

(** ** The iteration *)
Section ITER.
  Variable o : orbit.
  Variable n : Z.
  Hypothesis Hn : passes_per_cycle o = n.
  Hypothesis Hn0 : 0 < n.
  Variable D : Z -> Z.
  Hypothesis HD : forall k, 1 <= k <= n -> pass_duration o k = Ok (D k).
  Hypothesis HDpos : forall k, 1 <= k <= n -> 0 < D k.

  (** Duration of the absolute pass number [m]. *)
  Definition adur (m : Z) : Z := D ((m - 1) mod n + 1).
  (** The dates of the passes. *)
  Definition adate (date number : Z) (k : nat) : Z := date + zsum adur number k.

  Lemma adur_pos m : 0 < adur m.
  Proof using Hn0 HDpos.
    unfold adur. apply HDpos. pose proof (Z.mod_pos_bound (m - 1) n Hn0). lia.
  Qed.

  Lemma decode_ok m : decode_pass o m = Ok (Z.quot (m - 1) n + 1, (m - 1) mod n + 1).
  Proof using Hn Hn0.
    unfold decode_pass. rewrite Hn. destruct (Z.eqb_spec n 0); [lia|reflexivity].
  Qed.

  Lemma loop_step turns date last number :
    date <= last ->
    iterate_loop o (S turns) date last number =
    (let (l, e) := iterate_loop o turns (date + adur number) last (number + 1) in
     ((Z.quot (number - 1) n + 1, (number - 1) mod n + 1, date) :: l, e)).
  Proof using Hn Hn0 HD.
    intro H. cbn [iterate_loop]. destruct (Z.leb_spec date last); [|lia].
    rewrite decode_ok. unfold adur.
    rewrite HD by (pose proof (Z.mod_pos_bound (number - 1) n Hn0); lia). reflexivity.
  Qed.

  Lemma loop_spec turns date last number :
    (Z.to_nat (last - date + 1) < turns)%nat ->
    exists l, iterate_loop o turns date last number = (l, Finished) /\
      (forall k, (k < length l)%nat ->
         nth k l (0, 0, 0) =
         (Z.quot (number + Z.of_nat k - 1) n + 1, (number + Z.of_nat k - 1) mod n + 1,
          adate date number k)) /\
      (forall k, (k < length l)%nat -> adate date number k <= last) /\
      last < adate date number (length l).
  Proof using Hn Hn0 HD HDpos.
    revert date number. induction turns as [|turns IH]; intros date number H; [lia|].
    destruct (Z_le_dec date last) as [Hd|Hd].
    - rewrite loop_step by auto.
      pose proof (adur_pos number) as P.
      destruct (IH (date + adur number) (number + 1)) as [l [E [E1 [E2 E3]]]]; [lia|].
      rewrite E. eexists. split; [reflexivity|].
      assert (A : forall k, adate (date + adur number) (number + 1) k = adate date number (S k)).
      { intro k. unfold adate. cbn [zsum]. lia. }
      split; [|split].
      + intros [|k] Hk.
        * cbn [nth]. unfold adate. cbn [zsum]. f_equal; [f_equal|]; try lia.
          -- do 2 f_equal. lia.
          -- do 2 f_equal. lia.
        * cbn [nth]. cbn [length] in Hk. rewrite E1 by lia. rewrite A.
          f_equal. f_equal; do 2 f_equal; lia.
      + intros [|k] Hk.
        * unfold adate. cbn [zsum]. lia.
        * cbn [length] in Hk. rewrite <- A. apply E2. lia.
      + cbn [length]. now rewrite <- A.
    - exists []. cbn [iterate_loop]. destruct (Z.leb_spec date last); [lia|].
      repeat split; cbn [length]; intros; try lia. unfold adate. cbn [zsum]. lia.
  Qed.

  Lemma adur_period x : adur (x + Z.of_nat (Z.to_nat n)) = adur x.
  Proof using Hn0.
    clear HD HDpos. unfold adur. do 2 f_equal. rewrite Z2Nat.id by lia.
    replace (x + n - 1) with (x - 1 + 1 * n) by ring. apply Z_mod_plus_full.
  Qed.

  Lemma adate_period date number k :
    adate date number (k + Z.to_nat n)%nat = adate date number k + zsum D 1 (Z.to_nat n).
  Proof using Hn0.
    clear HD HDpos. unfold adate.
    assert (S0 : forall f a i j, zsum f a (i + j) = zsum f a i + zsum f (a + Z.of_nat i) j).
    { clear. intros f a i. revert a. induction i as [|i IH]; intros a j.
      - simpl. rewrite Z.add_0_r. lia.
      - simpl. rewrite IH. replace (a + 1 + Z.of_nat i) with (a + Z.of_nat (S i)) by lia.
        replace (a + Z.pos (Pos.of_succ_nat i)) with (a + Z.of_nat (S i)) by lia. lia. }
    rewrite S0. rewrite (zsum_windows adur (Z.to_nat n) _ 1 adur_period).
    rewrite (zsum_ext adur D 1) by
      (intros x Hx; unfold adur; f_equal; rewrite Z.mod_small; lia).
    lia.
  Qed.
End ITER.

(** ** The points of a pass *)
Lemma where_map_In (f : Z -> bool) time i :
  In i (where_ (map f time)) <-> (i < length time)%nat /\ f (nth i time 0) = true.
Proof.
  rewrite where_In. destruct (Nat.lt_ge_cases i (length time)) as [H|H].
  - rewrite (nth_indep _ false (f 0)) by now rewrite map_length.
    rewrite (map_nth f). tauto.
  - rewrite nth_overflow by (rewrite map_length; lia). split; [discriminate|lia].
Qed.

(** The half-open interval of times of the pass number [k]. *)
Definition in_pass (pt : list Z) (k : Z) (t : Z) : Prop :=
  nth (Z.to_nat (k - 1)) pt 0 <= t /\ (k < zlen pt -> t < nth (Z.to_nat k) pt 0).

Lemma pass_indexes_ok o k :
  1 <= k <= passes_per_cycle o ->
  exists l, pass_indexes o k = Ok l /\ StronglySorted lt l /\
    forall i, In i l <-> (i < length (o_time o))%nat /\ in_pass (o_pass_time o) k (nth i (o_time o) 0).
Proof.
  unfold passes_per_cycle. intro H. unfold pass_indexes, in_pass, passes_per_cycle.
  assert (L : zlen (o_pass_time o) = Z.of_nat (length (o_pass_time o))) by reflexivity.
  destruct (Z.eqb_spec (k - 1) (zlen (o_pass_time o) - 1)) as [E|E].
  - rewrite (py_nth_last _ 0) by (intro C; rewrite C in L, H; unfold zlen in H; simpl in H; lia).
    cbn [obind]. eexists. split; [reflexivity|]. split; [apply where_sorted|]. intro i.
    rewrite where_map_In, Z.leb_le.
    replace (Z.to_nat (k - 1)) with (length (o_pass_time o) - 1)%nat by lia.
    split; intros [? ?]; repeat split; auto; try lia; tauto.
  - rewrite (py_nth_pos _ (k - 1) 0) by lia. rewrite (py_nth_pos _ (k - 1 + 1) 0) by lia.
    cbn [obind]. eexists. split; [reflexivity|]. split; [apply where_sorted|]. intro i.
    rewrite where_map_In, andb_true_iff, Z.leb_le, Z.ltb_lt.
    replace (k - 1 + 1) with k by lia. split; intros [? [? ?]]; repeat split; auto; try lia.
Qed.

Lemma in_pass_unique pt k k' t :
  StronglySorted Z.lt pt -> 1 <= k <= zlen pt -> 1 <= k' <= zlen pt ->
  in_pass pt k t -> in_pass pt k' t -> k = k'.
Proof.
  intros S. assert (W : forall k k', 1 <= k <= zlen pt -> 1 <= k' <= zlen pt ->
    in_pass pt k t -> in_pass pt k' t -> ~ k < k').
  { clear k k'. intros k k' H H' [A B] [A' B'] C. unfold zlen in *.
    specialize (B ltac:(lia)).
    pose proof (sorted_nth_le pt (Z.to_nat k) (Z.to_nat (k' - 1)) S ltac:(lia) ltac:(lia)). lia. }
  intros H H' P P'. pose proof (W k k' H H' P P'). pose proof (W k' k H' H P' P). lia.
Qed.

Lemma in_pass_exists pt t :
  pt <> [] -> nth 0 pt 0 <= t -> exists k, 1 <= k <= zlen pt /\ in_pass pt k t.
Proof.
  intros N H.
  assert (W : forall m, (m < length pt)%nat -> nth 0 pt 0 <= t ->
     (exists k, 1 <= k <= Z.of_nat m /\ in_pass pt k t) \/ nth m pt 0 <= t).
  { induction m as [|m IH]; intros Hm H0; [now right|].
    destruct (IH ltac:(lia) H0) as [[k [Hk P]]|P].
    - left. exists k. split; [lia|auto].
    - destruct (Z_le_dec (nth (S m) pt 0) t); [now right|left].
      exists (Z.of_nat (S m)). split; [lia|]. unfold in_pass.
      replace (Z.to_nat (Z.of_nat (S m) - 1)) with m by lia.
      replace (Z.to_nat (Z.of_nat (S m))) with (S m) by lia. split; [auto|intros; lia]. }
  assert (0 < length pt)%nat by (destruct pt; simpl; [congruence|lia]).
  destruct (W (length pt - 1)%nat ltac:(lia) H) as [[k [Hk P]]|P].
  - exists k. split; [unfold zlen; lia|auto].
  - exists (zlen pt). unfold zlen. split; [lia|]. unfold in_pass, zlen.
    replace (Z.to_nat (Z.of_nat (length pt) - 1)) with (length pt - 1)%nat by lia.
    split; [auto|lia].
Qed.

(** ** Selections *)
Lemma select_In {A} mask (l : list A) x :
  In x (select mask l) <-> exists i, (i < length l)%nat /\ nth i mask false = true /\ nth_error l i = Some x.
Proof.
  revert l; induction mask as [|b m IH]; intro l.
  - simpl. split; [tauto|]. intros [i [_ [C _]]]. destruct i; discriminate.
  - destruct l as [|a l].
    + replace (select (b :: m) ([] : list A)) with ([] : list A) by (now destruct b).
      split; [intros []|]. intros [i [C _]]. simpl in C. lia.
    + assert (W : (exists i, (i < length l)%nat /\ nth i m false = true /\ nth_error l i = Some x) <->
        (exists i, (0 < i < length (a :: l))%nat /\ nth i (b :: m) false = true /\ nth_error (a :: l) i = Some x)).
      { split.
        - intros [i [H1 [H2 H3]]]. exists (S i). simpl. repeat split; auto; lia.
        - intros [[|i] [H1 [H2 H3]]]; [lia|]. exists i. simpl in *. repeat split; auto; lia. }
      destruct b; cbn [select].
      * cbn [In]. rewrite IH, W. split.
        -- intros [<-|[i [H1 H2]]]; [exists 0%nat; simpl; repeat split; auto; lia|].
           exists i. split; [lia|auto].
        -- intros [[|i] [H1 [H2 H3]]]; [left; simpl in H3; congruence|right].
           exists (S i). repeat split; auto; lia.
      * rewrite IH, W. split.
        -- intros [i [H1 H2]]. exists i. split; [lia|auto].
        -- intros [[|i] [H1 [H2 H3]]]; [simpl in H2; discriminate|].
           exists (S i). repeat split; auto; lia.
Qed.

Lemma select_length {A B} mask (l : list A) (l' : list B) :
  length l = length l' -> length (select mask l) = length (select mask l').
Proof.
  revert l l'; induction mask as [|b m IH]; intros [|a l] [|a' l'] H; simpl in *; try discriminate; auto.
  - now destruct b.
  - destruct b; simpl; auto.
Qed.

Lemma select_combine {A B} mask (l : list A) (l' : list B) :
  select mask (combine l l') = combine (select mask l) (select mask l').
Proof.
  revert l l'; induction mask as [|b m IH]; intros [|a l] [|a' l']; try (destruct b; reflexivity); try reflexivity.
  - destruct b; simpl; [destruct (select m l)|destruct (select m l)]; reflexivity.
  - destruct b; simpl; now rewrite IH.
Qed.

Lemma select_map_filter {A} (f : A -> bool) (l : list A) : select (map f l) l = filter f l.
Proof. induction l as [|a l IH]; simpl; auto. destruct (f a); now rewrite IH. Qed.
