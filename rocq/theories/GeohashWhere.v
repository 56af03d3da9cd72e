(** [geohash.where] (lib/geohash/string.cpp:325-395): for every code of a matrix of
    codes, the first and last rows and columns it occupies. *)
From Verif Require Import Base BaseProofs GeohashModel GeohashProofs GeohashProofs6.
From Coq Require Import Ascii.
Open Scope Z_scope.

Definition code := list ascii.
Definition code_eqb (a b : code) : bool := if list_eq_dec ascii_dec a b then true else false.

(** ((first row, last row), (first column, last column)). *)
Record span := Span { row0 : Z; row1 : Z; col0 : Z; col1 : Z }.

(** string.cpp:329-332. *)
Definition shifts : list (Z * Z) :=
  [(-1, -1); (-1, 1); (-1, 0); (0, -1); (1, -1); (0, 1); (1, 0); (1, 1)].

(** string.cpp:372-383. *)
Definition extend (s : span) (i j : Z) : span :=
  Span (Z.min (row0 s) i) (Z.max (row1 s) i) (Z.min (col0 s) j) (Z.max (col1 s) j).

(** string.cpp:364-386. *)
Definition visit_neighbours (m : Z -> Z -> code) (rows cols : Z) (c : code) (ix jx : Z) (s : span) : span :=
  fold_left (fun s d =>
    let i := ix + fst d in let j := jx + snd d in
    if (0 <=? i) && (i <? rows) && (0 <=? j) && (j <? cols) then
      if code_eqb c (m i j) then extend s i j else s
    else s) shifts s.

(** [std::unordered_map::find], emplace, and in-place update of the value. *)
Fixpoint find_code (c : code) (l : list (code * span)) : option span :=
  match l with
  | [] => None
  | (k, v) :: t => if code_eqb c k then Some v else find_code c t
  end.
Fixpoint update_code (c : code) (v : span) (l : list (code * span)) : list (code * span) :=
  match l with
  | [] => []
  | (k, w) :: t => if code_eqb c k then (k, v) :: t else (k, w) :: update_code c v t
  end.

(** string.cpp:352-387, one cell. *)
Definition where_step (m : Z -> Z -> code) (rows cols : Z) (st : list (code * span)) (x : Z * Z) :=
  let (ix, jx) := x in
  let c := m ix jx in
  match find_code c st with
  | None => st ++ [(c, Span ix ix jx jx)]
  | Some s => update_code c (visit_neighbours m rows cols c ix jx s) st
  end.

(** Cells in scan order. *)
Definition scan (rows cols : Z) : list (Z * Z) :=
  flat_map (fun i => map (fun j => (i, j)) (zrange cols)) (zrange rows).

(** string.cpp:325-395. *)
Definition where_ (m : Z -> Z -> code) (rows cols : Z) : list (code * span) :=
  fold_left (where_step m rows cols) (scan rows cols) [].

(* ------------------------------------------------------------------ *)

Lemma code_eqb_refl : forall c, code_eqb c c = true.
Proof. intros. unfold code_eqb. destruct (list_eq_dec ascii_dec c c); congruence. Qed.
Lemma code_eqb_eq : forall a b, code_eqb a b = true <-> a = b.
Proof. intros. unfold code_eqb. destruct (list_eq_dec ascii_dec a b); split; congruence. Qed.

Lemma find_app : forall c l m, find_code c (l ++ m) = match find_code c l with Some v => Some v | None => find_code c m end.
Proof.
  intros c l m. induction l as [|[k v] l IH]; cbn; [reflexivity|]. destruct (code_eqb c k); [reflexivity|apply IH].
Qed.
Lemma find_update : forall c d v l, find_code c (update_code d v l) =
  if code_eqb c d then (match find_code d l with Some _ => Some v | None => None end) else find_code c l.
Proof.
  intros c d v l. induction l as [|[k w] l IH]; cbn [update_code find_code].
  - destruct (code_eqb c d); reflexivity.
  - destruct (code_eqb d k) eqn:E1.
    + apply code_eqb_eq in E1. subst k. cbn [find_code]. destruct (code_eqb c d); reflexivity.
    + cbn [find_code]. destruct (code_eqb c k) eqn:E2.
      * apply code_eqb_eq in E2. subst k. destruct (code_eqb c d) eqn:E3; [|reflexivity].
        apply code_eqb_eq in E3. subst d. rewrite code_eqb_refl in E1. discriminate.
      * rewrite IH. reflexivity.
Qed.

(** What happens to one code. *)
Definition track (m : Z -> Z -> code) (rows cols : Z) (c : code) (o : option span) (x : Z * Z) : option span :=
  if code_eqb c (m (fst x) (snd x)) then
    match o with
    | None => Some (Span (fst x) (fst x) (snd x) (snd x))
    | Some s => Some (visit_neighbours m rows cols c (fst x) (snd x) s)
    end
  else o.

Lemma where_track : forall m rows cols c l st,
  find_code c (fold_left (where_step m rows cols) l st) = fold_left (track m rows cols c) l (find_code c st).
Proof.
  intros m rows cols c l. induction l as [|[i j] l IH]; intros st; [reflexivity|].
  cbn [fold_left]. rewrite IH. f_equal. unfold track, where_step. cbn [fst snd].
  destruct (find_code (m i j) st) as [s|] eqn:F.
  - rewrite find_update, F. destruct (code_eqb c (m i j)) eqn:E; [|reflexivity].
    apply code_eqb_eq in E. subst c. rewrite F. reflexivity.
  - rewrite find_app. destruct (code_eqb c (m i j)) eqn:E.
    + apply code_eqb_eq in E. subst c. rewrite F. cbn. rewrite code_eqb_refl. reflexivity.
    + destruct (find_code c st); [reflexivity|]. cbn. rewrite E. reflexivity.
Qed.

Definition inside (s : span) (i j : Z) : Prop := row0 s <= i <= row1 s /\ col0 s <= j <= col1 s.
Definition span_le (s t : span) : Prop := row0 t <= row0 s /\ row1 s <= row1 t /\ col0 t <= col0 s /\ col1 s <= col1 t.

Lemma span_le_refl : forall s, span_le s s.
Proof. unfold span_le; lia. Qed.
Lemma span_le_trans : forall a b c, span_le a b -> span_le b c -> span_le a c.
Proof. unfold span_le; lia. Qed.

(** Neighbour relation. *)
Definition near (i j i' j' : Z) : Prop := In (i' - i, j' - j) shifts.

Lemma fold_neighbours : forall m rows cols c ix jx ds s,
  let r := fold_left (fun s d =>
    let i := ix + fst d in let j := jx + snd d in
    if (0 <=? i) && (i <? rows) && (0 <=? j) && (j <? cols) then
      if code_eqb c (m i j) then extend s i j else s
    else s) ds s in
  span_le s r /\
  (forall t, span_le s t -> (forall d, In d ds -> 0 <= ix + fst d < rows -> 0 <= jx + snd d < cols ->
      m (ix + fst d) (jx + snd d) = c -> inside t (ix + fst d) (jx + snd d)) -> span_le r t) /\
  (forall d, In d ds -> 0 <= ix + fst d < rows -> 0 <= jx + snd d < cols ->
      m (ix + fst d) (jx + snd d) = c -> inside r (ix + fst d) (jx + snd d)).
Proof.
  intros m rows cols c ix jx ds. induction ds as [|d ds IH]; intros s; cbv zeta; cbn [fold_left].
  - split; [apply span_le_refl|]. split; [auto|intros d []].
  - set (s' := if (0 <=? ix + fst d) && (ix + fst d <? rows) && (0 <=? jx + snd d) && (jx + snd d <? cols)
               then if code_eqb c (m (ix + fst d) (jx + snd d)) then extend s (ix + fst d) (jx + snd d) else s else s).
    specialize (IH s'). cbv zeta in IH. fold s'. destruct IH as (I1 & I2 & I3).
    set (r := fold_left _ ds s') in *.
    assert (S1 : span_le s s').
    { unfold s', extend, span_le. repeat match goal with |- context [if ?b then _ else _] => destruct b end; cbn [row0 row1 col0 col1]; lia. }
    split; [eapply span_le_trans; eassumption|]. split.
    + intros t Ht Hin. apply I2.
      * unfold s'. destruct ((0 <=? ix + fst d) && (ix + fst d <? rows) && (0 <=? jx + snd d) && (jx + snd d <? cols)) eqn:B; [|assumption].
        destruct (code_eqb c (m (ix + fst d) (jx + snd d))) eqn:E; [|assumption]. apply code_eqb_eq in E.
        rewrite !andb_true_iff, !Z.leb_le, !Z.ltb_lt in B.
        specialize (Hin d (or_introl eq_refl) ltac:(lia) ltac:(lia) (eq_sym E)).
        unfold inside, span_le, extend in *. cbn [row0 row1 col0 col1]. lia.
      * intros d' H. apply Hin. right; assumption.
    + intros d' [<-|H] H1 H2 H3; [|apply I3; assumption].
      assert (inside s' (ix + fst d) (jx + snd d)).
      { unfold s'. replace ((0 <=? ix + fst d) && (ix + fst d <? rows) && (0 <=? jx + snd d) && (jx + snd d <? cols)) with true
          by (symmetry; rewrite !andb_true_iff, !Z.leb_le, !Z.ltb_lt; lia).
        rewrite H3, code_eqb_refl. unfold inside, extend. cbn [row0 row1 col0 col1]. lia. }
      unfold inside, span_le in *. lia.
Qed.

Lemma visit_facts : forall m rows cols c ix jx s,
  span_le s (visit_neighbours m rows cols c ix jx s) /\
  (forall t, span_le s t -> (forall i j, near ix jx i j -> 0 <= i < rows -> 0 <= j < cols -> m i j = c -> inside t i j) ->
     span_le (visit_neighbours m rows cols c ix jx s) t) /\
  (forall i j, near ix jx i j -> 0 <= i < rows -> 0 <= j < cols -> m i j = c ->
     inside (visit_neighbours m rows cols c ix jx s) i j).
Proof.
  intros m rows cols c ix jx s. destruct (fold_neighbours m rows cols c ix jx shifts s) as (A & B & C).
  split; [exact A|]. split.
  - intros t Ht H. apply B; [assumption|]. intros [di dj] Hd H1 H2 H3. cbn [fst snd] in *. apply H; try assumption.
    unfold near. replace (ix + di - ix) with di by lia. replace (jx + dj - jx) with dj by lia. assumption.
  - intros i j Hn H1 H2 H3. unfold near in Hn. specialize (C (i - ix, j - jx) Hn). cbn [fst snd] in C.
    replace (ix + (i - ix)) with i in C by lia. replace (jx + (j - jx)) with j in C by lia. apply C; assumption.
Qed.

(** Tracking never shrinks the span. *)
Lemma track_grows : forall m rows cols c l s, exists t,
  fold_left (track m rows cols c) l (Some s) = Some t /\ span_le s t.
Proof.
  intros m rows cols c l. induction l as [|x l IH]; intros s.
  - exists s. split; [reflexivity|apply span_le_refl].
  - cbn [fold_left]. unfold track at 2. destruct (code_eqb c (m (fst x) (snd x))).
    + destruct (visit_facts m rows cols c (fst x) (snd x) s) as (A & _).
      destruct (IH (visit_neighbours m rows cols c (fst x) (snd x) s)) as (t & E & L).
      exists t. split; [assumption|eapply span_le_trans; eassumption].
    + apply IH.
Qed.

(** It stays within any rectangle holding all the occurrences of the code. *)
Lemma track_bounded : forall m rows cols c l s t u,
  (forall i j, 0 <= i < rows -> 0 <= j < cols -> m i j = c -> inside u i j) -> span_le s u ->
  fold_left (track m rows cols c) l (Some s) = Some t -> span_le t u.
Proof.
  intros m rows cols c l s t u H. revert s. induction l as [|x l IH]; intros s Hs E.
  - cbn in E. injection E as <-. assumption.
  - cbn [fold_left] in E. unfold track at 2 in E. destruct (code_eqb c (m (fst x) (snd x))).
    + eapply IH; [|exact E]. destruct (visit_facts m rows cols c (fst x) (snd x) s) as (_ & B & _).
      apply B; [assumption|]. intros; apply H; assumption.
    + eapply IH; eassumption.
Qed.

(** An occurrence visited after the first one includes its neighbours. *)
Lemma track_includes : forall m rows cols c l s ix jx i j t,
  In (ix, jx) l -> m ix jx = c -> near ix jx i j -> 0 <= i < rows -> 0 <= j < cols -> m i j = c ->
  fold_left (track m rows cols c) l (Some s) = Some t -> inside t i j.
Proof.
  intros m rows cols c l. induction l as [|x l IH]; intros s ix jx i j t Hin Hc Hn Hi Hj Hm E; [destruct Hin|].
  cbn [fold_left] in E. unfold track at 2 in E. destruct Hin as [->|Hin].
  - cbn [fst snd] in E. rewrite Hc, code_eqb_refl in E.
    destruct (visit_facts m rows cols c ix jx s) as (_ & _ & C). specialize (C i j Hn Hi Hj Hm).
    destruct (track_grows m rows cols c l (visit_neighbours m rows cols c ix jx s)) as (t' & E' & L).
    rewrite E in E'. injection E' as <-. unfold inside, span_le in *. lia.
  - destruct (code_eqb c (m (fst x) (snd x))); eapply IH; eassumption.
Qed.

Lemma track_none : forall m rows cols c l, (forall x, In x l -> m (fst x) (snd x) <> c) ->
  forall o, fold_left (track m rows cols c) l o = o.
Proof.
  intros m rows cols c l H. induction l as [|x l IH]; intros o; [reflexivity|]. cbn [fold_left]. unfold track at 2.
  destruct (code_eqb c (m (fst x) (snd x))) eqn:E.
  - apply code_eqb_eq in E. exfalso. apply (H x); [left; reflexivity|auto].
  - apply IH. intros; apply H; right; assumption.
Qed.

Lemma in_scan : forall rows cols i j, In (i, j) (scan rows cols) <-> 0 <= i < rows /\ 0 <= j < cols.
Proof.
  intros. unfold scan. rewrite in_flat_map. split.
  - intros (a & Ha & H). apply in_map_iff in H. destruct H as (b & E & Hb). injection E as <- <-. rewrite in_zrange in *. auto.
  - intros [Hi Hj]. exists i. rewrite in_zrange. split; [assumption|]. apply in_map_iff. exists j. rewrite in_zrange. auto.
Qed.

(** Scan order. *)
Definition before (x y : Z * Z) : Prop := fst x < fst y \/ (fst x = fst y /\ snd x < snd y).

Lemma scan_sorted : forall rows cols, Sorted.StronglySorted before (scan rows cols).
Proof.
  intros. unfold scan. apply StronglySorted_flat_map with (S := Z.lt); [| |apply zrange_sorted].
  - intros i _. apply StronglySorted_map with (S := Z.lt); [|apply zrange_sorted]. intros; right; cbn; lia.
  - intros x y u v _ _ L Hu Hv. apply in_map_iff in Hu, Hv. destruct Hu as (a & <- & _), Hv as (b & <- & _). left; cbn; lia.
Qed.

Lemma sorted_split : forall l x y, Sorted.StronglySorted before l -> In x l -> In y l -> before x y ->
  forall l1 l2, l = l1 ++ x :: l2 -> In y l2.
Proof.
  intros l x y Hs Hx Hy B l1 l2 ->. apply in_app_or in Hy. destruct Hy as [Hy|[->|Hy]]; [exfalso| |assumption].
  - revert Hs Hy. clear Hx. induction l1 as [|a l1 IH]; intros Hs Hy; [destruct Hy|].
    cbn in Hs. inversion Hs; subst. destruct Hy as [->|Hy]; [|apply IH; assumption].
    rewrite Forall_forall in H2. specialize (H2 x ltac:(apply in_or_app; right; left; reflexivity)).
    unfold before in *. lia.
  - unfold before in B. lia.
Qed.

(** The code fills exactly a rectangle. *)
Definition fills (m : Z -> Z -> code) (rows cols : Z) (c : code) (u : span) : Prop :=
  0 <= row0 u <= row1 u /\ row1 u < rows /\ 0 <= col0 u <= col1 u /\ col1 u < cols /\
  forall i j, 0 <= i < rows -> 0 <= j < cols -> (m i j = c <-> inside u i j).

Lemma first_split : forall m rows cols c u, fills m rows cols c u ->
  exists l2, find_code c (where_ m rows cols)
       = fold_left (track m rows cols c) l2 (Some (Span (row0 u) (row0 u) (col0 u) (col0 u))) /\
     forall i j, 0 <= i < rows -> 0 <= j < cols -> m i j = c -> (i, j) <> (row0 u, col0 u) -> In (i, j) l2.
Proof.
  intros m rows cols c u (F1 & F2 & F3 & F4 & F5). unfold where_. rewrite where_track. cbn [find_code].
  assert (Hin : In (row0 u, col0 u) (scan rows cols)) by (apply in_scan; lia).
  pose proof (scan_sorted rows cols) as Hs.
  destruct (in_split _ _ Hin) as (l1 & l2 & E). exists l2. split.
  - rewrite E, fold_left_app. cbn [fold_left]. rewrite (track_none m rows cols c l1).
    + assert (Hm : m (row0 u) (col0 u) = c) by (apply F5; [lia|lia|]; unfold inside; lia).
      f_equal. unfold track. cbn [fst snd]. rewrite Hm, code_eqb_refl. reflexivity.
    + intros [i j] Hx Hc. cbn [fst snd] in Hc.
      assert (Hsc : In (i, j) (scan rows cols)) by (rewrite E; apply in_or_app; left; assumption).
      apply in_scan in Hsc. apply F5 in Hc; [|lia|lia]. unfold inside in Hc.
      (* (i,j) is before (row0,col0) in the list *)
      assert (before (i, j) (row0 u, col0 u)).
      { rewrite E in Hs. clear -Hs Hx. revert Hs. induction l1 as [|a l1 IH]; intros Hs; [destruct Hx|].
        cbn in Hs. inversion Hs; subst. destruct Hx as [->|Hx]; [|apply IH; assumption].
        rewrite Forall_forall in H2. apply H2. apply in_or_app. right; left; reflexivity. }
      unfold before in H. cbn [fst snd] in H. lia.
  - intros i j Hi Hj Hc Hne. eapply sorted_split with (x := (row0 u, col0 u)); [exact Hs|assumption|apply in_scan; auto| |exact E].
    apply F5 in Hc; [|assumption|assumption]. unfold inside in Hc. unfold before. cbn [fst snd].
    destruct (Z.eq_dec i (row0 u)); [|lia]. destruct (Z.eq_dec j (col0 u)); [|lia]. subst. congruence.
Qed.

Lemma where_rectangle : forall m rows cols c u, fills m rows cols c u ->
  (row1 u - row0 u + 1) * (col1 u - col0 u + 1) >= 3 -> find_code c (where_ m rows cols) = Some u.
Proof.
  intros m rows cols c u F Hbig. destruct (first_split m rows cols c u F) as (l2 & E & Hl2).
  destruct F as (F1 & F2 & F3 & F4 & F5). rewrite E.
  destruct (track_grows m rows cols c l2 (Span (row0 u) (row0 u) (col0 u) (col0 u))) as (t & Et & Lt).
  rewrite Et. f_equal.
  assert (Bt : span_le t u).
  { eapply track_bounded; [| |exact Et].
    - intros; apply F5; assumption.
    - unfold span_le. cbn [row0 row1 col0 col1]. lia. }
  assert (It : inside t (row1 u) (col1 u)).
  { destruct (Z.eq_dec (row0 u) (row1 u)) as [Er|Er].
    - assert (col0 u + 2 <= col1 u) by nia.
      eapply track_includes with (ix := row1 u) (jx := col1 u - 1); [apply Hl2| | | | | |exact Et]; try lia.
      + apply F5; unfold inside; lia.
      + intro C. assert (col1 u - 1 = col0 u) by congruence. lia.
      + apply F5; unfold inside; lia.
      + unfold near. replace (row1 u - row1 u) with 0 by lia. replace (col1 u - (col1 u - 1)) with 1 by lia. cbn. tauto.
      + apply F5; unfold inside; lia.
    - destruct (Z.eq_dec (col0 u) (col1 u)) as [Ec|Ec].
      + assert (row0 u + 2 <= row1 u) by nia.
        eapply track_includes with (ix := row1 u - 1) (jx := col1 u); [apply Hl2| | | | | |exact Et]; try lia.
        * apply F5; unfold inside; lia.
        * intro C. assert (row1 u - 1 = row0 u) by congruence. lia.
        * apply F5; unfold inside; lia.
        * unfold near. replace (col1 u - col1 u) with 0 by lia. replace (row1 u - (row1 u - 1)) with 1 by lia. cbn. tauto.
        * apply F5; unfold inside; lia.
      + eapply track_includes with (ix := row1 u) (jx := col1 u - 1); [apply Hl2| | | | | |exact Et]; try lia.
        * apply F5; unfold inside; lia.
        * intro C. assert (row1 u = row0 u) by congruence. lia.
        * apply F5; unfold inside; lia.
        * unfold near. replace (row1 u - row1 u) with 0 by lia. replace (col1 u - (col1 u - 1)) with 1 by lia. cbn. tauto.
        * apply F5; unfold inside; lia. }
  destruct t as [a b c0 d], u as [a' b' c' d']. unfold span_le, inside in *. cbn [row0 row1 col0 col1] in *.
  assert (a = a' /\ b = b' /\ c0 = c' /\ d = d') as (-> & -> & -> & ->) by lia. reflexivity.
Qed.

(** The keys are exactly the codes of the matrix. *)
Lemma track_some : forall m rows cols c l o, fold_left (track m rows cols c) l o = None <->
  o = None /\ forall x, In x l -> m (fst x) (snd x) <> c.
Proof.
  intros m rows cols c l. induction l as [|x l IH]; intros o; cbn [fold_left].
  - split; [intros ->; split; [reflexivity|intros x []]|tauto].
  - rewrite IH. unfold track. destruct (code_eqb c (m (fst x) (snd x))) eqn:E.
    + apply code_eqb_eq in E. split.
      * intros [H _]. destruct o; discriminate.
      * intros [_ H]. exfalso. apply (H x); [left; reflexivity|auto].
    + assert (m (fst x) (snd x) <> c) by (intro C; subst c; rewrite code_eqb_refl in E; discriminate). split.
      * intros [H1 H2]. split; [assumption|]. intros y [<-|Hy]; [assumption|apply H2; assumption].
      * intros [H1 H2]. split; [assumption|]. intros y Hy. apply H2. right; assumption.
Qed.

Lemma where_keys : forall m rows cols c,
  find_code c (where_ m rows cols) <> None <-> exists i j, 0 <= i < rows /\ 0 <= j < cols /\ m i j = c.
Proof.
  intros m rows cols c. unfold where_. rewrite where_track. cbn [find_code]. split.
  - intros H. destruct (existsb (fun x => code_eqb c (m (fst x) (snd x))) (scan rows cols)) eqn:Ex.
    + apply existsb_exists in Ex. destruct Ex as ([i j] & Hin & E). apply in_scan in Hin. apply code_eqb_eq in E.
      exists i, j. cbn [fst snd] in E. intuition.
    + exfalso. apply H. apply track_some. split; [reflexivity|]. intros x Hx Hc.
      assert (existsb (fun x => code_eqb c (m (fst x) (snd x))) (scan rows cols) = true); [|congruence].
      apply existsb_exists. exists x. split; [assumption|]. apply code_eqb_eq. auto.
  - intros (i & j & Hi & Hj & E) C. apply track_some in C. destruct C as [_ C]. apply (C (i, j)); [apply in_scan; auto|assumption].
Qed.

(** The span reported for a code never exceeds the occurrences of the code. *)
Lemma where_sound : forall m rows cols c u s,
  (forall i j, 0 <= i < rows -> 0 <= j < cols -> m i j = c -> inside u i j) ->
  find_code c (where_ m rows cols) = Some s -> span_le s u.
Proof.
  intros m rows cols c u s H. unfold where_. rewrite where_track. cbn [find_code].
  assert (G : forall l, (forall x, In x l -> 0 <= fst x < rows /\ 0 <= snd x < cols) ->
    fold_left (track m rows cols c) l None = Some s -> span_le s u).
  { induction l as [|x l IH]; intros Hl E; [discriminate|]. cbn [fold_left] in E. unfold track at 2 in E.
    destruct (code_eqb c (m (fst x) (snd x))) eqn:B.
    - eapply track_bounded; [exact H| |exact E]. apply code_eqb_eq in B.
      destruct (Hl x (or_introl eq_refl)) as [H1 H2]. specialize (H _ _ H1 H2 (eq_sym B)).
      unfold inside, span_le in *. cbn [row0 row1 col0 col1]. lia.
    - apply IH; [|assumption]. intros; apply Hl; right; assumption. }
  apply G. intros [i j] Hx. apply in_scan in Hx. assumption.
Qed.
