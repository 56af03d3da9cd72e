(** Lemmas about [dispatch]. *)
From Verif Require Import Base BaseProofs ThreadModel.
Open Scope Z_scope.

(** Consecutive ranges from [a] to [b]. *)
Fixpoint chained (a b : Z) (l : list (Z * Z)) : Prop :=
  match l with
  | [] => a = b
  | (s, e) :: t => s = a /\ a <= e /\ chained e b t
  end.

Lemma launch_chained : forall k start shift size, 0 <= shift -> start + Z.of_nat k * shift <= size ->
  chained start size (launch k start shift size).
Proof.
  induction k as [|k IH]; intros start shift size Hs Hle; cbn [launch chained].
  - split; [reflexivity|]. split; [lia|reflexivity].
  - split; [reflexivity|]. split; [lia|]. apply IH; [exact Hs|]. lia.
Qed.
Lemma launch_length : forall k start shift size, length (launch k start shift size) = S k.
Proof. induction k; intros; cbn; [reflexivity|f_equal; apply IHk]. Qed.

Lemma dispatch_ranges_ok : forall size num hw l, 0 <= size -> 0 <= num -> 0 <= hw ->
  dispatch_ranges size num hw = Ok l -> chained 0 size l.
Proof.
  intros size num hw l Hs Hn Hh. unfold dispatch_ranges. destruct (Z.eqb_spec num 1).
  - intro E. assert (l = [(0, size)]) by congruence. subst. cbn. auto.
  - set (n' := if num =? 0 then hw else num). assert (0 <= n') by (unfold n'; destruct (num =? 0); lia).
    destruct (Z.eqb_spec n' 0); [discriminate|]. intro E. injection E as <-.
    apply launch_chained; [apply Z.quot_pos; lia|].
    rewrite Z2Nat.id by lia. rewrite Z.quot_div_nonneg by lia.
    pose proof (Z.mul_div_le size n' ltac:(lia)). pose proof (Z.div_pos size n' ltac:(lia) ltac:(lia)). nia.
Qed.

Lemma chained_le : forall l a b, chained a b l -> a <= b.
Proof.
  induction l as [|[s e] l IH]; intros a b H; cbn in H; [lia|]. destruct H as (-> & H1 & H2). apply IH in H2. lia.
Qed.
Lemma chained_bounds : forall l a b i s e, chained a b l -> nth_error l i = Some (s, e) -> a <= s <= e /\ e <= b.
Proof.
  induction l as [|[s0 e0] l IH]; intros a b i s e H N; [destruct i; discriminate|].
  cbn in H. destruct H as (-> & H1 & H2). destruct i as [|i]; cbn in N.
  - assert (a = s /\ e0 = e) as [<- <-] by (split; congruence). apply chained_le in H2. lia.
  - specialize (IH _ _ _ _ _ H2 N). lia.
Qed.
Lemma chained_order : forall l a b i j s e s' e', chained a b l ->
  nth_error l i = Some (s, e) -> nth_error l j = Some (s', e') -> (i < j)%nat -> e <= s'.
Proof.
  induction l as [|[s0 e0] l IH]; intros a b i j s e s' e' H N1 N2 L; [destruct i; discriminate|].
  cbn in H. destruct H as (-> & H1 & H2). destruct j as [|j]; [lia|]. cbn in N2. destruct i as [|i]; cbn in N1.
  - assert (e0 = e) by congruence. subst. destruct (chained_bounds _ _ _ _ _ _ H2 N2). lia.
  - eapply IH; eauto. lia.
Qed.
Lemma chained_cover : forall l a b x, chained a b l -> a <= x < b ->
  exists i s e, nth_error l i = Some (s, e) /\ s <= x < e.
Proof.
  induction l as [|[s0 e0] l IH]; intros a b x H Hx; cbn in H; [lia|]. destruct H as (-> & H1 & H2).
  destruct (Z_lt_ge_dec x e0).
  - exists 0%nat, a, e0. split; [reflexivity|lia].
  - destruct (IH e0 b x H2 ltac:(lia)) as (i & s & e & N & B). exists (S i), s, e. auto.
Qed.

Lemma nth_error_set_same : forall {A : Type} (l : list A) n v, (n < length l)%nat -> nth_error (set_nth n v l) n = Some v.
Proof. induction l as [|a l IH]; intros n v H; cbn in *; [lia|]. destruct n; cbn; [reflexivity|apply IH; lia]. Qed.
Lemma nth_error_set_other : forall {A : Type} (l : list A) n m v, n <> m -> nth_error (set_nth n v l) m = nth_error l m.
Proof. induction l as [|a l IH]; intros n m v H; cbn; [destruct n; reflexivity|]. destruct n, m; cbn; try reflexivity; [contradiction|apply IH; lia]. Qed.
Lemma set_nth_length : forall {A : Type} (l : list A) n v, length (set_nth n v l) = length l.
Proof. induction l as [|a l IH]; intros n v; cbn; [destruct n; reflexivity|]. destruct n; cbn; [reflexivity|f_equal; apply IH]. Qed.
Lemma map_fst_set : forall {A B : Type} (l : list (A * B)) n a b b0, nth_error l n = Some (a, b0) ->
  map fst (set_nth n (a, b) l) = map fst l.
Proof.
  induction l as [|[x y] l IH]; intros n a b b0 H; [destruct n; discriminate|]. destruct n; cbn in *.
  - assert (x = a) by congruence. subst. reflexivity.
  - f_equal. eapply IH; eassumption.
Qed.

Section Inv.
  Context {V : Type}.
  Variable body : Z -> V + string.
  Variable size : Z.

  (** Cells [s..x) hold their value. *)
  Definition written (o : list (option V)) (s x : Z) : Prop :=
    forall i, s <= i < x -> exists v, body i = inl v /\ nth_error o (Z.to_nat i) = Some (Some v).
  (** First failing element of a range. *)
  Definition first_error (s e j : Z) (w : string) : Prop :=
    s <= j < e /\ body j = inr w /\ forall i, s <= i < j -> exists v, body i = inl v.

  Definition thread_ok (o : list (option V)) (ex : option string) (t : (Z * Z) * tstate) : Prop :=
    let '((s, e), st) := t in
    match st with
    | Run cur => s <= cur <= e /\ written o s cur
    | Done => written o s e \/ (exists j w, first_error s e j w /\ ex <> None)
    end.

  Definition inv (c : config) : Prop :=
    chained 0 size (map fst (threads c)) /\ length (out c) = Z.to_nat size /\
    (spawned c <= length (threads c))%nat /\
    (forall i t, nth_error (threads c) i = Some t -> thread_ok (out c) (except c) t) /\
    (forall w, except c = Some w -> exists i s e st j, nth_error (threads c) i = Some ((s, e), st) /\ first_error s e j w).

  Lemma inv_start : forall ranges, chained 0 size ranges -> inv (start_config size ranges).
  Proof.
    intros r H. unfold inv, start_config. cbn [threads out except spawned].
    split; [rewrite map_map; cbn; rewrite map_id; exact H|]. split; [apply repeat_length|].
    split; [lia|]. split; [|discriminate].
    intros i t N. rewrite nth_error_map in N. destruct (nth_error r i) as [[s e]|] eqn:E; [|discriminate]. cbn in N.
    assert (t = ((s, e), Run s)) by congruence. subst. unfold thread_ok.
    destruct (chained_bounds _ _ _ _ _ _ H E). split; [lia|]. intros k Hk. lia.
  Qed.

  Lemma nth_fst : forall (ts : list ((Z * Z) * tstate)) i s e st, nth_error ts i = Some ((s, e), st) -> nth_error (map fst ts) i = Some (s, e).
  Proof. intros ts i s e st H. rewrite nth_error_map, H. reflexivity. Qed.

  Lemma inv_step : forall a b, inv a -> step body a b -> inv b.
  Proof.
    intros a b (I1 & I2 & I3 & I4 & I5) St. destruct St; unfold inv in *; cbn [threads out except spawned] in *.
    - repeat split; auto; lia.
    - (* write *)
      assert (B : 0 <= s <= e /\ e <= size) by (eapply chained_bounds; [exact I1|eapply nth_fst; eassumption]).
      pose proof (I4 _ _ H0) as T. cbn in T. destruct T as [T1 T2].
      split; [erewrite map_fst_set by eassumption; exact I1|]. split; [rewrite set_nth_length; exact I2|].
      split; [rewrite set_nth_length; exact I3|]. split.
      + intros j t N. destruct (Nat.eq_dec i j) as [<-|Hij].
        * rewrite nth_error_set_same in N by (apply nth_error_Some; congruence).
          assert (t = ((s, e), Run (cur + 1))) by congruence. subst. cbn. split; [lia|].
          intros x Hx. destruct (Z.eq_dec x cur) as [->|Hne].
          -- exists v. split; [assumption|]. apply nth_error_set_same. rewrite I2. lia.
          -- destruct (T2 x ltac:(lia)) as (v' & V1 & V2). exists v'. split; [exact V1|].
             rewrite nth_error_set_other by lia. exact V2.
        * rewrite nth_error_set_other in N by exact Hij. specialize (I4 _ _ N).
          destruct t as [[s' e'] st]. 
          assert (D : e <= s' \/ e' <= s).
          { destruct (Nat.lt_ge_cases i j).
            - left. eapply (chained_order _ _ _ i j); [exact I1|eapply nth_fst; eassumption|eapply nth_fst; eassumption|lia].
            - right. eapply (chained_order _ _ _ j i); [exact I1|eapply nth_fst; eassumption|eapply nth_fst; eassumption|lia]. }
          assert (W : forall x, x <= e' -> written o s' x -> written (set_nth (Z.to_nat cur) (Some v) o) s' x).
          { assert (B' : 0 <= s' <= e' /\ e' <= size) by (eapply chained_bounds; [exact I1|eapply nth_fst; eassumption]).
            intros x Hx Hw y Hy. destruct (Hw y Hy) as (v' & V1 & V2). exists v'. split; [exact V1|].
            rewrite nth_error_set_other by lia. exact V2. }
          cbn in *. destruct st as [c0|].
          -- destruct I4 as [P1 P2]. split; [exact P1|]. apply W; [lia|exact P2].
          -- destruct I4 as [P|P]; [left; apply W; [lia|exact P]|right; exact P].
      + intros w Hw. destruct (I5 w Hw) as (j & s' & e' & st & jj & N & F).
        destruct (Nat.eq_dec i j) as [<-|Hij].
        * exists i, s, e, (Run (cur + 1)), jj. split; [apply nth_error_set_same, nth_error_Some; congruence|]. 
          assert (s = s' /\ e = e') as [-> ->] by (split; congruence). exact F.
        * exists j, s', e', st, jj. split; [rewrite nth_error_set_other by exact Hij; exact N|exact F].
    - (* catch *)
      pose proof (I4 _ _ H0) as T. cbn in T. destruct T as [T1 T2].
      assert (F : first_error s e cur w).
      { split; [lia|]. split; [assumption|]. intros x Hx. destruct (T2 x Hx) as (v & V1 & _). exists v. exact V1. }
      split; [erewrite map_fst_set by eassumption; exact I1|]. split; [exact I2|].
      split; [rewrite set_nth_length; exact I3|]. split.
      + intros j t N. destruct (Nat.eq_dec i j) as [<-|Hij].
        * rewrite nth_error_set_same in N by (apply nth_error_Some; congruence).
          assert (t = ((s, e), Done)) by congruence. subst. cbn. right. exists cur, w. split; [exact F|discriminate].
        * rewrite nth_error_set_other in N by exact Hij. specialize (I4 _ _ N).
          destruct t as [[s' e'] st]. cbn in *. destruct st; [exact I4|].
          destruct I4 as [P|(j' & w' & P & _)]; [left; exact P|right; exists j', w'; split; [exact P|discriminate]].
      + intros w0 Hw. assert (w0 = w) by congruence. subst w0.
        exists i, s, e, Done, cur. split; [apply nth_error_set_same, nth_error_Some; congruence|exact F].
    - (* exit *)
      pose proof (I4 _ _ H0) as T. cbn in T. destruct T as [T1 T2].
      split; [erewrite map_fst_set by eassumption; exact I1|]. split; [exact I2|].
      split; [rewrite set_nth_length; exact I3|]. split.
      + intros j t N. destruct (Nat.eq_dec i j) as [<-|Hij].
        * rewrite nth_error_set_same in N by (apply nth_error_Some; congruence).
          assert (t = ((s, e), Done)) by congruence. subst. cbn. left. replace e with cur by lia. exact T2.
        * rewrite nth_error_set_other in N by exact Hij. exact (I4 _ _ N).
      + intros w0 Hw. destruct (I5 w0 Hw) as (j & s' & e' & st & jj & N & F).
        destruct (Nat.eq_dec i j) as [<-|Hij].
        * exists i, s, e, Done, jj. split; [apply nth_error_set_same, nth_error_Some; congruence|].
          assert (s = s' /\ e = e') as [-> ->] by (split; congruence). exact F.
        * exists j, s', e', st, jj. split; [rewrite nth_error_set_other by exact Hij; exact N|exact F].
  Qed.

  Lemma inv_steps : forall a b, steps body a b -> inv a -> inv b.
  Proof. induction 1; intros; [assumption|]. apply IHsteps. eapply inv_step; eassumption. Qed.

  (** Values on [0,size) when nothing fails. *)
  Lemma finished_ok : forall c, inv c -> finished c -> (forall i, 0 <= i < size -> exists v, body i = inl v) ->
    exists vs, answer c = Ok (map Some vs) /\ length vs = Z.to_nat size /\
      forall i, 0 <= i < size -> exists v, nth_error vs (Z.to_nat i) = Some v /\ body i = inl v.
  Proof.
    intros c (I1 & I2 & I3 & I4 & I5) [_ Fin] Good.
    assert (E : except c = None).
    { destruct (except c) as [w|] eqn:E; [|reflexivity]. destruct (I5 w eq_refl) as (i & s & e & st & j & N & (B & F & _)).
      assert (0 <= s <= e /\ e <= size) by (eapply chained_bounds; [exact I1|eapply nth_fst; eassumption]).
      destruct (Good j ltac:(lia)) as (v & Hv). congruence. }
    assert (W : forall i, 0 <= i < size -> exists v, body i = inl v /\ nth_error (out c) (Z.to_nat i) = Some (Some v)).
    { intros i Hi. destruct (chained_cover _ _ _ _ I1 Hi) as (k & s & e & N & B).
      rewrite nth_error_map in N. destruct (nth_error (threads c) k) as [[r st]|] eqn:N'; [|discriminate]. cbn in N.
      assert (r = (s, e)) by congruence. subst r. assert (st = Done) by (eapply Fin; eassumption). subst st.
      specialize (I4 _ _ N'). cbn in I4. destruct I4 as [P|(j & w & _ & P)]; [apply P; lia|congruence]. }
    assert (H : exists vs, out c = map Some vs).
    { assert (A : forall (l : list (option V)) n0, (forall k, (k < length l)%nat -> exists v, nth_error l k = Some (Some v)) -> n0 = 0%nat -> exists vs, l = map Some vs).
      { clear. induction l as [|x l IH]; intros n0 H _; [exists []; reflexivity|].
        destruct (H 0%nat ltac:(cbn; lia)) as (v & Hv). cbn in Hv.
        destruct (IH 0%nat) as (vs & ->); [|reflexivity|exists (v :: vs); cbn; congruence].
        intros k Hk. apply (H (S k)). cbn. lia. }
      apply (A _ 0%nat); [|reflexivity]. intros k Hk. destruct (W (Z.of_nat k) ltac:(lia)) as (v & _ & Hv). rewrite Nat2Z.id in Hv. eauto. }
    destruct H as (vs & Hvs). exists vs. unfold answer. rewrite E, Hvs. split; [reflexivity|].
    rewrite Hvs, map_length in I2. split; [exact I2|]. intros i Hi. destruct (W i Hi) as (v & Hb & Hv). exists v. split; [|exact Hb].
    rewrite Hvs, nth_error_map in Hv. destruct (nth_error vs (Z.to_nat i)); cbn in Hv; congruence.
  Qed.

  Lemma finished_throw : forall c, inv c -> finished c -> (exists i w, 0 <= i < size /\ body i = inr w) ->
    exists w k s e j, answer c = Throw w /\ nth_error (map fst (threads c)) k = Some (s, e) /\ first_error s e j w.
  Proof.
    intros c (I1 & I2 & I3 & I4 & I5) [_ Fin] (i & w & Hi & Hb).
    destruct (except c) as [w'|] eqn:E.
    - destruct (I5 w' eq_refl) as (k & s & e & st & j & N & F). exists w', k, s, e, j. unfold answer. rewrite E.
      split; [reflexivity|]. split; [eapply nth_fst; eassumption|exact F].
    - exfalso. destruct (chained_cover _ _ _ _ I1 Hi) as (k & s & e & N & B).
      rewrite nth_error_map in N. destruct (nth_error (threads c) k) as [[r st]|] eqn:N'; [|discriminate]. cbn in N.
      assert (r = (s, e)) by congruence. subst r. assert (st = Done) by (eapply Fin; eassumption). subst st.
      specialize (I4 _ _ N'). cbn in I4. destruct I4 as [P|(j & w' & _ & P)]; [|congruence].
      destruct (P i ltac:(lia)) as (v & V1 & _). congruence.
  Qed.

  (** Progress and termination. *)
  Lemma progress : forall c, inv c -> finished c \/ exists c', step body c c'.
  Proof.
    intros [k ts o ex] (I1 & I2 & I3 & I4 & I5). cbn [threads out except spawned] in *.
    destruct (Nat.lt_ge_cases k (length ts)) as [L|L].
    { right. eexists. apply StepSpawn. exact L. }
    destruct (existsb (fun t => match snd t with Run _ => true | Done => false end) ts) eqn:X.
    - right. apply existsb_exists in X. destruct X as ([[s e] st] & Hin & Hst). cbn in Hst. destruct st as [cur|]; [|discriminate].
      apply In_nth_error in Hin. destruct Hin as [i N].
      assert (i < length ts)%nat by (apply nth_error_Some; congruence).
      destruct (Z_lt_ge_dec cur e) as [Lc|Lc].
      + destruct (body cur) as [v|w] eqn:Eb.
        * eexists. eapply StepWrite with (i := i); try eassumption. lia.
        * eexists. eapply StepCatch with (i := i); try eassumption. lia.
      + eexists. eapply StepExit with (i := i); try eassumption; lia.
    - left. split; [cbn; lia|]. cbn. intros i r st N. destruct st as [cur|]; [|reflexivity]. exfalso.
      assert (existsb (fun t : Z * Z * tstate => match snd t with Run _ => true | Done => false end) ts = true); [|congruence].
      apply existsb_exists. exists (r, Run cur). split; [eapply nth_error_In; eassumption|reflexivity].
  Qed.

  Definition work (t : (Z * Z) * tstate) : nat :=
    match t with (_, Done) => 0 | ((_, e), Run cur) => S (Z.to_nat (e - cur)) end.
  Definition measure (c : @config V) : nat := (length (threads c) - spawned c) + list_sum (map work (threads c)).

  Lemma sum_set : forall ts i t t', nth_error ts i = Some t -> (work t' < work t)%nat ->
    (list_sum (map work (set_nth i t' ts)) < list_sum (map work ts))%nat.
  Proof.
    induction ts as [|x ts IH]; intros i t t' N L; [destruct i; discriminate|]. destruct i; cbn in *.
    - assert (x = t) by congruence. subst. lia.
    - specialize (IH _ _ _ N L). unfold list_sum in IH. lia.
  Qed.
  Lemma measure_step : forall a b, inv a -> step body a b -> (measure b < measure a)%nat.
  Proof.
    intros a b I St. destruct St; unfold measure; cbn [threads spawned]; rewrite ?set_nth_length.
    - lia.
    - pose proof (sum_set ts i _ ((s, e), Run (cur + 1)) H0 ltac:(cbn; lia)). lia.
    - pose proof (sum_set ts i _ ((s, e), Done) H0 ltac:(cbn; lia)). lia.
    - pose proof (sum_set ts i _ ((s, e), Done) H0 ltac:(cbn; lia)). lia.
  Qed.

  Inductive nsteps : nat -> config -> config -> Prop :=
  | NRefl : forall c, nsteps 0 c c
  | NCons : forall n a b c, step body a b -> nsteps n b c -> nsteps (S n) a c.

  Lemma nsteps_bound : forall n a b, nsteps n a b -> inv a -> (n + measure b <= measure a)%nat.
  Proof.
    induction 1; intros; [lia|]. pose proof (measure_step _ _ H1 H). specialize (IHnsteps (inv_step _ _ H1 H)). lia.
  Qed.

  Lemma can_finish : forall m c, (measure c <= m)%nat -> inv c -> exists c', steps body c c' /\ finished c'.
  Proof.
    induction m as [|m IH]; intros c Hm I.
    - destruct (progress c I) as [F|(c' & St)]; [exists c; split; [constructor|exact F]|]. pose proof (measure_step _ _ I St). lia.
    - destruct (progress c I) as [F|(c' & St)]; [exists c; split; [constructor|exact F]|].
      pose proof (measure_step _ _ I St). destruct (IH c' ltac:(lia) (inv_step _ _ I St)) as (d & S1 & S2).
      exists d. split; [econstructor; eassumption|exact S2].
  Qed.

  (** No two threads are about to store into the same cell. *)
  Lemma race_free : forall c i j s e cur s' e' cur', inv c -> i <> j ->
    nth_error (threads c) i = Some ((s, e), Run cur) -> nth_error (threads c) j = Some ((s', e'), Run cur') ->
    cur < e -> cur' < e' -> cur <> cur'.
  Proof.
    intros c i j s e cur s' e' cur' (I1 & _ & _ & I4 & _) Hij N N' L L'.
    pose proof (I4 _ _ N) as [T _]. pose proof (I4 _ _ N') as [T' _].
    destruct (Nat.lt_ge_cases i j).
    - assert (e <= s') by (eapply (chained_order _ _ _ i j); [exact I1|eapply nth_fst; eassumption|eapply nth_fst; eassumption|lia]). lia.
    - assert (e' <= s) by (eapply (chained_order _ _ _ j i); [exact I1|eapply nth_fst; eassumption|eapply nth_fst; eassumption|lia]). lia.
  Qed.
End Inv.
