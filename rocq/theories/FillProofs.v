(** Lemmas about gap filling along a line. *)
From Verif Require Import Base BaseProofs MathModel MathProofs FillModel FillSpec.
Open Scope Z_scope.

Lemma defined_dec : forall m i, {defined_at m i} + {~ defined_at m i}.
Proof. intros m i. unfold defined_at. destruct (nth_error m i) as [[|]|]; [right|left|right]; congruence. Qed.

Lemma assign_length : forall T (f : nat -> T) l x, length (fold_left (fun x jx => set_nth jx (f jx) x) l x) = length x.
Proof. intros T f. induction l as [|j l IH]; intros x; cbn [fold_left]; [reflexivity|]. rewrite IH. apply set_nth_length. Qed.
Lemma assign_nth : forall T (f : nat -> T) l x i,
  nth_error (fold_left (fun x jx => set_nth jx (f jx) x) l x) i =
  if in_dec Nat.eq_dec i l then (if lt_dec i (length x) then Some (f i) else None) else nth_error x i.
Proof.
  intros T f. induction l as [|j l IH]; intros x i; cbn [fold_left]; [reflexivity|]. rewrite IH, set_nth_length.
  destruct (in_dec Nat.eq_dec i l) as [H|H], (in_dec Nat.eq_dec i (j :: l)) as [G|G]; try reflexivity.
  - exfalso; apply G; right; exact H.
  - destruct G as [<-|G]; [|contradiction]. destruct (lt_dec j (length x)) as [L|L].
    + apply nth_error_set_nth_eq; exact L.
    + apply nth_error_None. rewrite set_nth_length. lia.
  - apply nth_error_set_nth_neq. intro C. apply G. left; congruence.
Qed.
Lemma assign_range_in : forall T (f : nat -> T) a b x i, (a <= i < b)%nat -> (i < length x)%nat ->
  nth_error (assign_range T f a b x) i = Some (f i).
Proof.
  intros T f a b x i H L. unfold assign_range. rewrite assign_nth. destruct (in_dec Nat.eq_dec i (seq a (b - a))) as [G|G].
  - destruct (lt_dec i (length x)); [reflexivity|lia].
  - exfalso. apply G. apply in_seq. lia.
Qed.
Lemma assign_range_out : forall T (f : nat -> T) a b x i, ~ (a <= i < b)%nat ->
  nth_error (assign_range T f a b x) i = nth_error x i.
Proof.
  intros T f a b x i H. unfold assign_range. rewrite assign_nth. destruct (in_dec Nat.eq_dec i (seq a (b - a))) as [G|G]; [|reflexivity].
  apply in_seq in G. lia.
Qed.
Lemma assign_range_length : forall T (f : nat -> T) a b x, length (assign_range T f a b x) = length x.
Proof. intros. apply assign_length. Qed.

Lemma list_eq_nth : forall T (x y : list T), (forall i, nth_error x i = nth_error y i) -> x = y.
Proof.
  intros T. induction x as [|a x IH]; intros [|b y] H; [reflexivity|specialize (H 0%nat); discriminate|specialize (H 0%nat); discriminate|].
  f_equal; [specialize (H 0%nat); cbn in H; congruence|]. apply IH. intro i. exact (H (S i)).
Qed.

Section Line.
  Variable T : Type.
  Variables (plus minus : T -> T -> T) (scale divz : T -> Z -> T).
  Variable x : list T.
  Variable mask : list bool.
  Hypothesis same_length : length mask = length x.

  Definition interp (xa xb : T) (a i b : nat) : T :=
    plus (scale (divz (minus xb xa) (Z.of_nat b - Z.of_nat a)) (Z.of_nat i - Z.of_nat a)) xa.

  Lemma defined_lt : forall i, defined_at mask i -> (i < length x)%nat.
  Proof. intros i H. unfold defined_at in H. assert (nth_error mask i <> None) by congruence. apply nth_error_Some in H0. lia. Qed.
  Lemma defined_value : forall i, defined_at mask i -> exists v, nth_error x i = Some v.
  Proof.
    intros i H. apply defined_lt in H. destruct (nth_error x i) as [v|] eqn:E; [eauto|]. apply nth_error_None in E. lia.
  Qed.

  Record linv (k : nat) (st : fstate T) : Prop := {
    l_len : length (fx _ st) = length x;
    l_last : match last_valid _ st with
             | None => forall i, (i < k)%nat -> ~ defined_at mask i
             | Some l => (l < k)%nat /\ defined_at mask l /\ forall i, (l < i < k)%nat -> ~ defined_at mask i
             end;
    l_first : match first_valid _ st with
              | None => last_valid _ st = None
              | Some f => (f < k)%nat /\ first_defined mask f /\ last_valid _ st <> None
              end;
    l_same : forall i, (defined_at mask i \/ (forall a, (a < i)%nat -> ~ defined_at mask a) \/
                        (forall b, (i < b < k)%nat -> ~ defined_at mask b)) ->
             nth_error (fx _ st) i = nth_error x i;
    l_gap : forall a i b xa xb, gap mask a i b -> (b < k)%nat -> nth_error x a = Some xa -> nth_error x b = Some xb ->
            nth_error (fx _ st) i = Some (interp xa xb a i b) }.

  Lemma linv_start : linv 0 (FState T x None None).
  Proof.
    constructor; cbn [fx last_valid first_valid]; try reflexivity.
    - intros i H; lia.
    - intros a i b xa xb (H & _) L; lia.
  Qed.

  Lemma linv_step : forall k st u, linv k st -> nth_error mask k = Some u ->
    exists st', line_step T plus minus scale divz st k u = Ok st' /\ linv (S k) st'.
  Proof.
    intros k st u I Hu. unfold line_step. assert (Kx : (k < length x)%nat).
    { rewrite <- same_length. apply nth_error_Some. congruence. }
    destruct u.
    - (* undefined: nothing changes *)
      assert (Nk : ~ defined_at mask k) by (unfold defined_at; congruence).
      exists st. split; [reflexivity|]. destruct I as [I1 I2 I3 I4 I5]. constructor; try assumption.
      + destruct (last_valid T st).
        * destruct I2 as (A & B & C). split; [lia|]. split; [exact B|]. intros i Hi. destruct (Nat.eq_dec i k) as [->|]; [exact Nk|apply C; lia].
        * intros i Hi. destruct (Nat.eq_dec i k) as [->|]; [exact Nk|apply I2; lia].
      + destruct (first_valid T st); [|exact I3]. destruct I3 as (A & B & C). split; [lia|]. auto.
      + intros i H. apply I4. destruct H as [H|[H|H]]; [auto|auto|right; right; intros b Hb; apply H; lia].
      + intros a i b xa xb G L Ea Eb. destruct (Nat.eq_dec b k) as [->|]; [destruct G as (_ & _ & G & _); contradiction|].
        apply (I5 a i b xa xb G ltac:(lia) Ea Eb).
    - assert (Dk : defined_at mask k) by exact Hu.
      pose proof (l_len _ _ I) as I1. pose proof (l_last _ _ I) as I2. pose proof (l_first _ _ I) as I3.
      pose proof (l_same _ _ I) as I4. pose proof (l_gap _ _ I) as I5.
      destruct (last_valid T st) as [l|] eqn:El.
      + destruct I2 as (Llt & Dl & Nl).
        assert (F3 : exists f, first_valid T st = Some f /\ (f < k)%nat /\ first_defined mask f).
        { destruct (first_valid T st) as [f|]; [exists f; tauto|discriminate]. }
        destruct F3 as (f & Ef & Flt & Fd).
        destruct (Z.ltb_spec 1 (Z.of_nat k - Z.of_nat l)) as [G|G].
        * assert (El' : nth_error (fx T st) l = nth_error x l) by (apply I4; left; exact Dl).
          assert (Ek' : nth_error (fx T st) k = nth_error x k) by (apply I4; left; exact Dk).
          destruct (defined_value l Dl) as [xl Exl]. destruct (defined_value k Dk) as [xk Exk].
          rewrite El', Ek', Exl, Exk. eexists. split; [reflexivity|]. constructor; cbn [fx last_valid first_valid].
          -- rewrite assign_range_length. exact I1.
          -- split; [lia|]. split; [exact Dk|]. intros i Hi; lia.
          -- rewrite Ef. split; [lia|]. split; [exact Fd|discriminate].
          -- intros i H. destruct (le_lt_dec (S l) i) as [A|A]; [destruct (le_lt_dec k i) as [B|B]|].
             ++ rewrite assign_range_out by lia. apply I4. destruct H as [H|[H|H]]; [auto|auto|right; right; intros b Hb; apply H; lia].
             ++ exfalso. destruct H as [H|[H|H]].
                ** apply (Nl i); [lia|exact H].
                ** apply (H l); [lia|exact Dl].
                ** apply (H k); [lia|exact Dk].
             ++ rewrite assign_range_out by lia. apply I4. destruct H as [H|[H|H]]; [auto|auto|].
                destruct (Nat.eq_dec i l) as [->|]; [left; exact Dl|]. exfalso. apply (H l); [lia|exact Dl].
          -- intros a i b xa xb Gp Lb Ea Eb. pose proof Gp as (H1 & Da & Db & Nab).
             destruct (Nat.eq_dec b k) as [->|Nb].
             ++ assert (a = l). { destruct (Nat.lt_trichotomy a l) as [L|[L|L]]; [exfalso; apply (Nab l); [lia|exact Dl]|exact L|exfalso; apply (Nl a); [lia|exact Da]]. }
                subst a. assert (xa = xl) by congruence. assert (xb = xk) by congruence. subst xa xb.
                rewrite assign_range_in; [reflexivity|lia|lia].
             ++ assert (b < k)%nat by lia. assert (b <= l)%nat. { destruct (le_lt_dec b l) as [L|L]; [exact L|]. exfalso. apply (Nl b); [lia|exact Db]. }
                rewrite assign_range_out by lia. apply I5 with (a := a) (b := b); assumption.
        * assert (k = S l) by lia. eexists. split; [reflexivity|]. constructor; cbn [fx last_valid first_valid]; try assumption.
          -- split; [lia|]. split; [exact Dk|]. intros i Hi; lia.
          -- rewrite Ef. split; [lia|]. split; [exact Fd|discriminate].
          -- intros i H'. apply I4. destruct H' as [H'|[H'|H']]; [auto|auto|right; right; intros b Hb; apply H'; lia].
          -- intros a i b xa xb Gp Lb Ea Eb. destruct (Nat.eq_dec b k) as [->|Nb]; [|apply (I5 a i b xa xb Gp ltac:(lia) Ea Eb)].
             exfalso. destruct Gp as (H1 & Da & Db & Nab). apply (Nab l); [lia|exact Dl].
      + assert (F3 : first_valid T st = None). { destruct (first_valid T st); [|reflexivity]. destruct I3 as (_ & _ & C). congruence. }
        rewrite F3. eexists. split; [reflexivity|]. constructor; cbn [fx last_valid first_valid]; try assumption.
        * split; [lia|]. split; [exact Dk|]. intros i Hi; lia.
        * split; [lia|]. split; [split; [exact Dk|intros j Hj; apply I2; lia]|discriminate].
        * intros i H'. apply I4. destruct H' as [H'|[H'|H']]; [auto|auto|right; right; intros b Hb; apply H'; lia].
        * intros a i b xa xb Gp Lb Ea Eb. exfalso. destruct Gp as (H1 & Da & Db & Nab). destruct (Nat.eq_dec b k) as [->|Nb]; apply (I2 a); try lia; exact Da.
  Qed.

  Lemma linv_loop : forall t k st, linv k st -> (forall i, nth_error t i = nth_error mask (k + i)) -> (k + length t = length mask)%nat ->
    exists st', line_loop T plus minus scale divz t k st = Ok st' /\ linv (length mask) st'.
  Proof.
    induction t as [|u t IH]; intros k st I H L; cbn [line_loop].
    - exists st. split; [reflexivity|]. cbn [length] in L. replace (length mask) with k by lia. exact I.
    - destruct (linv_step k st u I) as (st1 & E & I1).
      { specialize (H 0%nat). cbn in H. rewrite Nat.add_0_r in H. symmetry. exact H. }
      rewrite E. cbn [obind]. apply IH; [exact I1| |cbn [length] in L; lia].
      intro i. specialize (H (S i)). cbn in H. rewrite H. f_equal. lia.
  Qed.

  (** What [fill_line] does. *)
  Definition extrap_after (xf xl : T) (f l i : nat) : T :=
    plus (scale (divz (minus xl xf) (Z.of_nat l - Z.of_nat f)) (Z.of_nat i - Z.of_nat l)) xl.
  Definition extrap_before (xf xl : T) (f l i : nat) : T :=
    minus xf (scale (divz (minus xl xf) (Z.of_nat l - Z.of_nat f)) (Z.of_nat f - Z.of_nat i)).

  Lemma fill_line_spec :
    ((forall i, ~ defined_at mask i) /\ fill_line T plus minus scale divz x mask = Ok (x, map (fun _ => true) mask)) \/
    (exists d, first_defined mask d /\ last_defined mask d /\ fill_line T plus minus scale divz x mask = Ok (x, map (fun _ => true) mask)) \/
    (exists f l xf xl y, first_defined mask f /\ last_defined mask l /\ (f < l)%nat /\
       nth_error x f = Some xf /\ nth_error x l = Some xl /\
       fill_line T plus minus scale divz x mask = Ok (y, map (fun _ => false) mask) /\
       length y = length x /\
       (forall i, defined_at mask i -> nth_error y i = nth_error x i) /\
       (forall a i b xa xb, gap mask a i b -> nth_error x a = Some xa -> nth_error x b = Some xb -> nth_error y i = Some (interp xa xb a i b)) /\
       (forall i, (l < i < length x)%nat -> nth_error y i = Some (extrap_after xf xl f l i)) /\
       (forall i, (i < f)%nat -> nth_error y i = Some (extrap_before xf xl f l i))).
  Proof.
    destruct (linv_loop mask 0 (FState T x None None) linv_start (fun i => eq_refl) eq_refl) as (st & E & [I1 I2 I3 I4 I5]).
    unfold fill_line. rewrite E. cbn [obind].
    assert (Beyond : forall i, (length mask <= i)%nat -> ~ defined_at mask i) by (intros i H D; apply defined_lt in D; lia).
    destruct (first_valid T st) as [f|] eqn:Ef.
    - destruct I3 as (Lf & Fd & Nl). destruct (last_valid T st) as [l|] eqn:El; [|congruence].
      destruct I2 as (Ll & Dl & Nlast).
      assert (Ld : last_defined mask l).
      { split; [exact Dl|]. intros k Hk. destruct (lt_dec k (length mask)); [apply Nlast; lia|apply Beyond; lia]. }
      assert (Lfl : (f <= l)%nat). { destruct (le_lt_dec f l); [assumption|]. exfalso. destruct Fd as [_ F]. apply (F l); assumption. }
      destruct (Nat.eqb_spec l f) as [->|Ne].
      + right. left. exists f. split; [exact Fd|]. split; [exact Ld|]. do 2 f_equal. apply list_eq_nth. intro i. apply I4.
        destruct (lt_eq_lt_dec i f) as [[A|A]|A].
        * right; left. intros a Ha. apply (proj2 Fd). lia.
        * left. subst i. exact Dl.
        * right; right. intros b Hb. apply (proj2 Ld). lia.
      + right. right. destruct (defined_value f (proj1 Fd)) as [xf Exf]. destruct (defined_value l Dl) as [xl Exl].
        assert (Ef' : nth_error (fx T st) f = Some xf) by (rewrite I4; [exact Exf|left; exact (proj1 Fd)]).
        assert (El' : nth_error (fx T st) l = Some xl) by (rewrite I4; [exact Exl|left; exact Dl]).
        rewrite Ef', El'.
        set (x2 := if (l <? length x - 1)%nat then _ else _).
        set (x3 := if (0 <? f)%nat then _ else _).
        assert (L2 : length x2 = length x). { unfold x2. destruct (l <? length x - 1)%nat; [rewrite assign_range_length|]; exact I1. }
        assert (L3 : length x3 = length x). { unfold x3. destruct (0 <? f)%nat; [rewrite assign_range_length|]; exact L2. }
        assert (N2 : forall i, (i <= l)%nat -> nth_error x2 i = nth_error (fx T st) i).
        { intros i Hi. unfold x2. destruct (l <? length x - 1)%nat; [apply assign_range_out; lia|reflexivity]. }
        assert (N3 : forall i, (f <= i)%nat -> nth_error x3 i = nth_error x2 i).
        { intros i Hi. unfold x3. destruct (0 <? f)%nat; [apply assign_range_out; lia|reflexivity]. }
        exists f, l, xf, xl, x3.
        split; [exact Fd|]. split; [exact Ld|]. split; [lia|]. split; [exact Exf|]. split; [exact Exl|]. split; [reflexivity|].
        split; [exact L3|].
        split; [|split; [|split]].
        * intros i Di. assert (f <= i)%nat. { destruct (le_lt_dec f i); [assumption|]. exfalso. apply (proj2 Fd i); assumption. }
          assert (i <= l)%nat. { destruct (le_lt_dec i l); [assumption|]. exfalso. apply (proj2 Ld i); assumption. }
          rewrite N3, N2 by assumption. apply I4. left; exact Di.
        * intros a i b xa xb G Ea Eb. pose proof G as (H1 & Da & Db & _).
          assert (f <= a)%nat. { destruct (le_lt_dec f a); [assumption|]. exfalso. apply (proj2 Fd a); assumption. }
          assert (b <= l)%nat. { destruct (le_lt_dec b l); [assumption|]. exfalso. apply (proj2 Ld b); assumption. }
          rewrite N3, N2 by lia. apply (I5 a i b); try assumption. apply defined_lt in Db. lia.
        * intros i Hi. rewrite N3 by lia. unfold x2. destruct (Nat.ltb_spec l (length x - 1)); [|lia].
          rewrite assign_range_in; [reflexivity|lia|lia].
        * intros i Hi. unfold x3. destruct (Nat.ltb_spec 0 f); [|lia]. rewrite assign_range_in; [reflexivity|lia|].
          rewrite L2. pose proof (defined_lt f (proj1 Fd)). lia.
    - left. rewrite I3 in I2. assert (None_def : forall i, ~ defined_at mask i).
      { intros i. destruct (lt_dec i (length mask)); [apply I2; assumption|apply Beyond; lia]. }
      split; [exact None_def|]. do 2 f_equal. apply list_eq_nth. intro i. apply I4. right; left. intros a _. apply None_def.
  Qed.
End Line.

(** ** The value produced by [fill_line] always exists; its length. *)
Section Total.
  Variable T : Type.
  Variables (plus minus : T -> T -> T) (scale divz : T -> Z -> T).
  Notation fl := (fill_line T plus minus scale divz).

  Lemma fill_line_total : forall x mask, length mask = length x ->
    exists y b, fl x mask = Ok (y, map (fun _ => b) mask) /\ length y = length x.
  Proof.
    intros x mask L. destruct (fill_line_spec T plus minus scale divz x mask L) as [(_ & E)|[(d & _ & _ & E)|(f & l & xf & xl & y & _ & _ & _ & _ & _ & E & Ly & _)]].
    - exists x, true. auto.
    - exists x, true. auto.
    - exists y, false. auto.
  Qed.

  Notation row s nc i := (map (mx T s i) (seq 0 nc)).
  Notation mrow s nc i := (map (mm T s i) (seq 0 nc)).
  Notation col s nr j := (map (fun i => mx T s i j) (seq 0 nr)).
  Notation mcol s nr j := (map (fun i => mm T s i j) (seq 0 nr)).

  Lemma map_nth_seq : forall A (l : list A) d n, length l = n -> map (fun j => nth j l d) (seq 0 n) = l.
  Proof.
    intros A l d. induction l as [|a l IH]; intros n H; subst n; [reflexivity|]. cbn [length seq map nth]. f_equal.
    rewrite <- seq_shift, map_map. apply IH. reflexivity.
  Qed.
  Lemma map_ext_seq : forall A (f g : nat -> A) n, (forall j, (j < n)%nat -> f j = g j) -> map f (seq 0 n) = map g (seq 0 n).
  Proof. intros A f g n H. apply map_ext_in. intros j Hj. apply in_seq in Hj. apply H. lia. Qed.

  Lemma fill_row_ok : forall d nc s i, exists s1, fill_row T plus minus scale divz d nc s i = Ok s1 /\
    fl (row s nc i) (mrow s nc i) = Ok (row s1 nc i, mrow s1 nc i) /\
    forall a b, a <> i -> mx T s1 a b = mx T s a b /\ mm T s1 a b = mm T s a b.
  Proof.
    intros d nc s i. unfold fill_row. destruct (forallb (fun u => u) (mrow s nc i)) eqn:F.
    - exists s. split; [reflexivity|]. split; [|auto].
      assert (Nd : forall k, ~ defined_at (mrow s nc i) k).
      { intros k D. unfold defined_at in D. apply nth_error_In in D. rewrite forallb_forall in F. specialize (F _ D). discriminate. }
      destruct (fill_line_spec T plus minus scale divz (row s nc i) (mrow s nc i)) as [(_ & E)|[(a & (D & _) & _)|(f & l & xf & xl & y & (D & _) & _)]].
      + rewrite !map_length. reflexivity.
      + rewrite E. do 2 f_equal. rewrite <- (map_id (mrow s nc i)) at 2. apply map_ext_in. intros u Hu.
        rewrite forallb_forall in F. symmetry. exact (F u Hu).
      + exfalso. apply (Nd a). exact D.
      + exfalso. apply (Nd f). exact D.
    - destruct (fill_line_total (row s nc i) (mrow s nc i)) as (y & b & E & L); [rewrite !map_length; reflexivity|].
      rewrite E. cbn [obind]. eexists. split; [reflexivity|]. split.
      + do 2 f_equal; unfold write_row; cbn [mx mm fst snd].
        * erewrite map_ext_seq with (g := fun j => nth j y d); [|intros j Hj; rewrite Nat.eqb_refl; reflexivity].
          rewrite map_nth_seq; [reflexivity|]. rewrite L, map_length, seq_length. reflexivity.
        * erewrite (map_ext_seq _ (fun b0 => if Nat.eqb i i then _ else _) (fun j => nth j (map (fun _ => b) (mrow s nc i)) true)); [|intros j Hj; rewrite Nat.eqb_refl; reflexivity].
          rewrite map_nth_seq; [reflexivity|]. rewrite !map_length, seq_length. reflexivity.
      + intros a c Ha. unfold write_row; cbn [mx mm]. destruct (Nat.eqb_spec a i); [contradiction|auto].
  Qed.

  Lemma fill_col_ok : forall d nr s j, exists s1, fill_col T plus minus scale divz d nr s j = Ok s1 /\
    fl (col s nr j) (mcol s nr j) = Ok (col s1 nr j, mcol s1 nr j) /\
    forall a b, b <> j -> mx T s1 a b = mx T s a b /\ mm T s1 a b = mm T s a b.
  Proof.
    intros d nr s j. unfold fill_col.
    destruct (fill_line_total (col s nr j) (mcol s nr j)) as (y & b & E & L); [rewrite !map_length; reflexivity|].
    rewrite E. cbn [obind]. eexists. split; [reflexivity|]. split.
    - do 2 f_equal; unfold write_col; cbn [mx mm fst snd].
      + erewrite map_ext_seq with (g := fun i => nth i y d); [|intros i Hi; rewrite Nat.eqb_refl; reflexivity].
        rewrite map_nth_seq; [reflexivity|]. rewrite L, map_length, seq_length. reflexivity.
      + erewrite (map_ext_seq _ (fun i => if Nat.eqb j j then _ else _) (fun i => nth i (map (fun _ => b) (mcol s nr j)) true)); [|intros i Hi; rewrite Nat.eqb_refl; reflexivity].
        rewrite map_nth_seq; [reflexivity|]. rewrite !map_length, seq_length. reflexivity.
    - intros a c Ha. unfold write_col; cbn [mx mm]. destruct (Nat.eqb_spec c j); [contradiction|auto].
  Qed.

  Lemma rows_ok : forall d nc l s, NoDup l -> exists s1, for_each T (fill_row T plus minus scale divz d nc) l s = Ok s1 /\
    (forall i, In i l -> fl (row s nc i) (mrow s nc i) = Ok (row s1 nc i, mrow s1 nc i)) /\
    (forall a b, ~ In a l -> mx T s1 a b = mx T s a b /\ mm T s1 a b = mm T s a b).
  Proof.
    intros d nc. induction l as [|i l IH]; intros s N; cbn [for_each].
    - exists s. split; [reflexivity|]. split; [intros i []|auto].
    - inversion N as [|? ? Ni N']; subst. destruct (fill_row_ok d nc s i) as (s1 & E1 & R1 & K1).
      rewrite E1. cbn [obind]. destruct (IH s1 N') as (s2 & E2 & R2 & K2). exists s2. split; [exact E2|]. split.
      + intros a [<-|Ha].
        * rewrite R1. do 2 f_equal; apply map_ext_seq; intros b Hb; destruct (K2 i b Ni); congruence.
        * assert (a <> i) by congruence.
          rewrite <- (R2 a Ha). f_equal; apply map_ext_seq; intros b Hb; destruct (K1 a b H); congruence.
      + intros a b Ha. assert (A : a <> i) by (intro; apply Ha; left; congruence). assert (B : ~ In a l) by (intro; apply Ha; right; assumption).
        destruct (K1 a b A), (K2 a b B). split; congruence.
  Qed.
  Lemma cols_ok : forall d nr l s, NoDup l -> exists s1, for_each T (fill_col T plus minus scale divz d nr) l s = Ok s1 /\
    (forall j, In j l -> fl (col s nr j) (mcol s nr j) = Ok (col s1 nr j, mcol s1 nr j)) /\
    (forall a b, ~ In b l -> mx T s1 a b = mx T s a b /\ mm T s1 a b = mm T s a b).
  Proof.
    intros d nr. induction l as [|j l IH]; intros s N; cbn [for_each].
    - exists s. split; [reflexivity|]. split; [intros i []|auto].
    - inversion N as [|? ? Ni N']; subst. destruct (fill_col_ok d nr s j) as (s1 & E1 & R1 & K1).
      rewrite E1. cbn [obind]. destruct (IH s1 N') as (s2 & E2 & R2 & K2). exists s2. split; [exact E2|]. split.
      + intros a [<-|Ha].
        * rewrite R1. do 2 f_equal; apply map_ext_seq; intros b Hb; destruct (K2 b j Ni); congruence.
        * assert (a <> j) by congruence.
          rewrite <- (R2 a Ha). f_equal; apply map_ext_seq; intros b Hb; destruct (K1 b a H); congruence.
      + intros a b Ha. assert (A : b <> j) by (intro; apply Ha; left; congruence). assert (B : ~ In b l) by (intro; apply Ha; right; assumption).
        destruct (K1 a b A), (K2 a b B). split; congruence.
  Qed.

  Lemma matrix_ok : forall d nr nc s, exists s1 s2, fill_matrix T plus minus scale divz d nr nc s = Ok s2 /\
    (forall i, (i < nr)%nat -> fl (row s nc i) (mrow s nc i) = Ok (row s1 nc i, mrow s1 nc i)) /\
    (forall j, (j < nc)%nat -> fl (col s1 nr j) (mcol s1 nr j) = Ok (col s2 nr j, mcol s2 nr j)).
  Proof.
    intros d nr nc s. unfold fill_matrix.
    destruct (rows_ok d nc (seq 0 nr) s (seq_NoDup nr 0)) as (s1 & E1 & R1 & _). rewrite E1. cbn [obind].
    destruct (cols_ok d nr (seq 0 nc) s1 (seq_NoDup nc 0)) as (s2 & E2 & R2 & _). exists s1, s2. split; [exact E2|].
    split; intros k Hk; [apply R1|apply R2]; apply in_seq; lia.
  Qed.
End Total.
