(** Theorems about the crossovers of two half-orbits (properties C85 and C86). *)
From Verif Require Import Base BaseProofs MathModel MathProofs CrossModel CrossSpec CrossProofs CrossProofs2.
Open Scope Q_scope.

(** * C85 unrolling of the two tracks *)
(** The longitudes used for the intersection are, for each track, the unrolled longitudes
    moved by one same number of turns: no jump at the seam is left.  Nothing else changes,
    and if the two tracks have a common longitude both are moved alike. *)
Theorem C85_unrolled : forall l1 l2 n1 n2 u1 u2,
  normalize_line_strings l1 l2 = Ok (n1, n2) ->
  unrolled (map fst l1) u1 -> unrolled (map fst l2) u2 ->
  within_turn (map fst l1 ++ map fst l2) -> within_turn (u1 ++ u2) ->
  exists k1 k2 : Z,
    length n1 = length l1 /\ length n2 = length l2 /\
    map snd n1 = map snd l1 /\ map snd n2 = map snd l2 /\
    (forall i, (i < length u1)%nat -> at_ (map fst n1) i == at_ u1 i + inject_Z k1 * 360) /\
    (forall i, (i < length u2)%nat -> at_ (map fst n2) i == at_ u2 i + inject_Z k2 * 360) /\
    (k1 = k2 \/ forall a b, In a u1 -> In b u2 -> ~ same_lon a b).
Proof.
  intros l1 l2 n1 n2 u1 u2 N H1 H2 W U.
  destruct (normalize_unrolled l1 l2 n1 n2 u1 u2 N H1 H2 W U) as (k1 & k2 & A & B & C & D & E & F & G).
  exists k1, k2. repeat (split; [assumption|]). destruct G as [G|[[_ G]|[_ G]]]; [left; exact G|right|right];
    intros a b Ha Hb S; pose proof (G a b Ha Hb);
    pose proof (U a b ltac:(apply in_or_app; auto) ltac:(apply in_or_app; auto));
    pose proof (U b a ltac:(apply in_or_app; auto) ltac:(apply in_or_app; auto));
    pose proof (same_lon_close a b S ltac:(lra) ltac:(lra)); lra.
Qed.
Print Assumptions C85_unrolled.

(** Two points of the tracks are at the same longitude on the Earth if and only if they
    are at the same abscissa in the plane where the intersection is computed. *)
Theorem C85_meets : forall l1 l2 n1 n2 u1 u2,
  normalize_line_strings l1 l2 = Ok (n1, n2) ->
  unrolled (map fst l1) u1 -> unrolled (map fst l2) u2 ->
  within_turn (map fst l1 ++ map fst l2) -> within_turn (u1 ++ u2) ->
  forall i s j t, on_segment (length u1) i s -> on_segment (length u2) j t ->
  (same_lon (along u1 i s) (along u2 j t) <-> along (map fst n1) i s == along (map fst n2) j t).
Proof.
  intros l1 l2 n1 n2 u1 u2 N H1 H2 W U i s j t S1 S2.
  destruct (normalize_unrolled l1 l2 n1 n2 u1 u2 N H1 H2 W U) as (k1 & k2 & _ & _ & _ & _ & E & F & G).
  exact (meets_iff u1 u2 (map fst n1) (map fst n2) k1 k2 i s j t U E F G S1 S2).
Qed.
Print Assumptions C85_meets.

(** In particular for tracks that each cover less than 180 degrees of longitude, wherever
    they are and whatever their directions. *)
Theorem C85_half_orbits : forall l1 l2 n1 n2 u1 u2,
  normalize_line_strings l1 l2 = Ok (n1, n2) ->
  unrolled (map fst l1) u1 -> unrolled (map fst l2) u2 ->
  within_turn (map fst l1 ++ map fst l2) ->
  (forall x y, In x u1 -> In y u1 -> x - y < 180) -> (forall x y, In x u2 -> In y u2 -> x - y < 180) ->
  forall i s j t, on_segment (length u1) i s -> on_segment (length u2) j t ->
  (same_lon (along u1 i s) (along u2 j t) <-> along (map fst n1) i s == along (map fst n2) j t).
Proof.
  intros l1 l2 n1 n2 u1 u2 N H1 H2 W D1 D2 i s j t S1 S2.
  destruct (side_by_side u1 u2 D1 D2) as (k & U).
  pose proof (C85_meets l1 l2 n1 n2 u1 _ N H1 (unrolled_turn _ u2 k H2) W U i s j t S1) as E.
  rewrite map_length in E. rewrite <- E by exact S2. destruct S2 as [L2 _].
  pose proof (along_shift u2 (map (fun x => x + inject_Z k * 360) u2) (length u2) k j t (or_intror I) L2) as A.
  rewrite A by (intros; rewrite at_turn by assumption; reflexivity).
  split; intro H.
  - eapply same_lon_trans; [exact H|]. apply same_lon_sym, same_lon_turn.
  - eapply same_lon_trans; [exact H|]. apply same_lon_turn.
Qed.
Print Assumptions C85_half_orbits.

(** Fewer than three points: an exception, and only then. *)
Theorem C85_short : forall l1 l2,
  (exists w, normalize_line_strings l1 l2 = Throw w) <-> (length l1 < 3 \/ length l2 < 3)%nat.
Proof.
  intros l1 l2. unfold normalize_line_strings.
  destruct (Nat.ltb_spec (length l1) 3) as [A|A]; destruct (Nat.ltb_spec (length l2) 3) as [B|B]; cbn [orb];
    split; try (intros _; lia); try (intros; eexists; reflexivity).
  - intros [w H]. discriminate.
  - intros [H|H]; lia.
Qed.
Print Assumptions C85_short.

(** Tracks wider than 180 degrees that overlap at both ends are torn apart: here each
    covers 192 degrees, the line built for the second one jumps from 180 to -84, and the
    two lines of the plane meet at longitude 163.5, where the second track never goes. *)
Definition wide1 : line := [(0, 0); (96, 0); (192, 0)].
Definition wide2 : line := [(180, -(6)); (276, 90); (12, 0)].
Theorem C85_wide_refuted :
  exists n1 n2, normalize_line_strings wide1 wide2 = Ok (n1, n2) /\
    unrolled (map fst wide1) [0; 96; 192] /\ unrolled (map fst wide2) [180; 276; 372] /\
    within_turn (map fst wide1 ++ map fst wide2) /\
    at_ (map fst n2) 0 - at_ (map fst n2) 1 == 264 /\
    on_line (map fst n1) (map snd n1) (327 # 2, 0) /\ on_line (map fst n2) (map snd n2) (327 # 2, 0) /\
    ~ on_track [180; 276; 372] (map snd wide2) (327 # 2, 0).
Proof.
  eexists _, _. split; [vm_compute; reflexivity|].
  assert (T : forall x : Q, same_lon x x) by apply same_lon_refl.
  split; [|split; [|split; [|split; [|split; [|split]]]]].
  - split; [reflexivity|]. split.
    + intros [|[|[|i]]] L; cbn in L; try lia; apply T.
    + left. intros [|[|i]] L; cbn in L; try lia; unfold at_; cbn [nth]; lra.
  - split; [reflexivity|]. split.
    + intros [|[|[|i]]] L; cbn in L; try lia; try apply T. exists (-1)%Z. vm_compute. reflexivity.
    + left. intros [|[|i]] L; cbn in L; try lia; unfold at_; cbn [nth]; lra.
  - intros x y Hx Hy. cbn in Hx, Hy.
    repeat (destruct Hx as [<-|Hx]; [repeat (destruct Hy as [<-|Hy]; [reflexivity|]); contradiction|]); contradiction.
  - vm_compute. reflexivity.
  - exists 1%nat, (135 # 192). split; [split; [cbn; lia|split; vm_compute; discriminate]|]. split; vm_compute; reflexivity.
  - exists 0%nat, (1 # 16). split; [split; [cbn; lia|split; vm_compute; discriminate]|]. split; vm_compute; reflexivity.
  - intros (i & s & [L S] & [k E] & _). cbn [length] in L. cbn [fst] in E.
    assert (B : 180 <= along [180; 276; 372] i s <= 372).
    { destruct i as [|[|i]]; [| |lia]; unfold along, at_; cbn [nth]; split; nra. }
    set (a := along [180; 276; 372] i s) in *.
    assert (-1 < k < 0)%Z; [|lia].
    split; apply Z.lt_nge; intro G.
    + assert (D : inject_Z k <= inject_Z (-1)) by (rewrite <- Zle_Qle; lia). change (inject_Z (-1)) with (-(1)) in D. lra.
    + assert (D : inject_Z 0 <= inject_Z k) by (rewrite <- Zle_Qle; lia). change (inject_Z 0) with 0 in D. lra.
Qed.
Print Assumptions C85_wide_refuted.

(** A concrete case: an eastward and a westward track around the seam of [-180, 180). *)
Definition seam1 : line := [(170, -(10)); (-(178), 0); (-(166), 10)].
Definition seam2 : line := [(-(172), -(10)); (178, 5); (165, 10)].
Example C85_ex : exists n1 n2, normalize_line_strings seam1 seam2 = Ok (n1, n2) /\
    unrolled (map fst seam1) [170; 182; 194] /\ unrolled (map fst seam2) [188; 178; 165] /\
    within_turn (map fst seam1 ++ map fst seam2) /\ within_turn ([170; 182; 194] ++ [188; 178; 165]) /\
    map (fun p => Qred (fst p)) n1 = [170; 182; 194] /\
    map (fun p => Qred (fst p)) n2 = [188; 178; 165].
Proof.
  eexists _, _. split; [vm_compute; reflexivity|].
  assert (T : forall x : Q, same_lon x x) by apply same_lon_refl.
  split; [|split; [|split; [|split; [|split; reflexivity]]]].
  - split; [reflexivity|]. split.
    + intros [|[|[|i]]] L; cbn in L; try lia; try apply T; exists (-1)%Z; vm_compute; reflexivity.
    + left. intros [|[|i]] L; cbn in L; try lia; unfold at_; cbn [nth]; lra.
  - split; [reflexivity|]. split.
    + intros [|[|[|i]]] L; cbn in L; try lia; try apply T; exists (-1)%Z; vm_compute; reflexivity.
    + right. intros [|[|i]] L; cbn in L; try lia; unfold at_; cbn [nth]; lra.
  - intros x y Hx Hy. cbn in Hx, Hy.
    repeat (destruct Hx as [<-|Hx]; [repeat (destruct Hy as [<-|Hy]; [reflexivity|]); contradiction|]); contradiction.
  - intros x y Hx Hy. cbn in Hx, Hy.
    repeat (destruct Hx as [<-|Hx]; [repeat (destruct Hy as [<-|Hy]; [reflexivity|]); contradiction|]); contradiction.
Qed.

(** * C86 the crossovers returned *)
Lemma combine_fst {A B} : forall (a : list A) (b : list B), length a = length b -> map fst (combine a b) = a.
Proof. induction a as [|x a IH]; intros [|y b] L; cbn in *; try discriminate; [reflexivity|]. f_equal. apply IH. lia. Qed.
Lemma combine_snd {A B} : forall (a : list A) (b : list B), length a = length b -> map snd (combine a b) = b.
Proof. induction a as [|x a IH]; intros [|y b] L; cbn in *; try discriminate; [reflexivity|]. f_equal. apply IH. lia. Qed.

Lemma combine_len (a b : list Q) : length a = length b -> @length pt (combine a b) = length b.
Proof. intro H. rewrite (combine_length a b : @length pt (combine a b) = _), H. apply Nat.min_id. Qed.
Lemma lines_not_empty (l1 l2 n1 n2 : line) : normalize_line_strings l1 l2 = Ok (n1, n2) -> n1 <> [] /\ n2 <> [].
Proof.
  unfold normalize_line_strings.
  destruct (Nat.ltb_spec (length l1) 3) as [E1|E1]; [intro N; discriminate N|].
  destruct (Nat.ltb_spec (length l2) 3) as [E2|E2]; [intro N; discriminate N|].
  cbn [orb]. cbv zeta. intro N. injection N as <- <-.
  split; intro H; apply (f_equal (@length pt)) in H; rewrite !map_length in H; cbn in H; lia.
Qed.

Section Answers.
  Variables (plane_intersection geodetic_intersection : line -> line -> line).
  Variable distance : pt -> pt -> Q.
  Variable rtree_nearest : line -> pt -> list nat.
  Variables (lon1 lat1 lon2 lat2 : list Q) (predicate : Q).

  Let xover := crossover plane_intersection geodetic_intersection distance rtree_nearest lon1 lat1 lon2 lat2 predicate.
  Let xover_list := crossover_list plane_intersection geodetic_intersection distance rtree_nearest lon1 lat1 lon2 lat2 predicate.

  (** The three possible outcomes of [crossover] in the plane. *)
  Theorem C86_crossover : forall n1 n2,
    length lon1 = length lat1 -> length lon2 = length lat2 ->
    normalize_line_strings (combine lon1 lat1) (combine lon2 lat2) = Ok (n1, n2) ->
    match xover true with
    | Ok None => plane_intersection n1 n2 = [] \/
        exists p, In p (plane_intersection n1 n2) /\ too_far distance predicate lon1 lat1 lon2 lat2 n1 n2 p /\
          forall q, In q (plane_intersection n1 n2) -> same_place q p
    | Ok (Some a) => exists p, In p (plane_intersection n1 n2) /\
          reported distance predicate lon1 lat1 lon2 lat2 n1 n2 p a /\
          forall q, In q (plane_intersection n1 n2) -> same_place q p
    | Throw _ => exists p q, In p (plane_intersection n1 n2) /\ In q (plane_intersection n1 n2) /\ ~ same_place p q
    | UB _ => False
    end.
  Proof.
    intros n1 n2 L1 L2 N. unfold xover, crossover, check_container_size. rewrite L1, L2, !Nat.eqb_refl. cbn [obind].
    rewrite N. cbn [obind]. destruct (lines_not_empty _ _ n1 n2 N) as [Ne1 Ne2].
    pose proof (search_spec (plane_intersection n1 n2)) as S. destruct (search (plane_intersection n1 n2)) as [[p|]|w|w]; cbn [obind].
    - destruct S as [[t E] S]. assert (Ip : In p (plane_intersection n1 n2)) by (rewrite E; left; reflexivity).
      pose proof (plane_answer_spec distance lon1 lat1 lon2 lat2 n1 n2 predicate Ne1 Ne2 p) as A.
      destruct (plane_answer distance lon1 lat1 lon2 lat2 n1 n2 predicate p) as [a|].
      + exists p. auto.
      + right. exists p. auto.
    - left. exact S.
    - exact S.
    - exact S.
  Qed.

  (** The list of the crossovers, in the order of the intersection. *)
  Theorem C86_list : forall n1 n2,
    length lon1 = length lat1 -> length lon2 = length lat2 ->
    normalize_line_strings (combine lon1 lat1) (combine lon2 lat2) = Ok (n1, n2) ->
    exists r, xover_list true = Ok r /\
      listed distance predicate lon1 lat1 lon2 lat2 n1 n2 (plane_intersection n1 n2) r.
  Proof.
    intros n1 n2 L1 L2 N. unfold xover_list, crossover_list, check_container_size. rewrite L1, L2, !Nat.eqb_refl. cbn [obind].
    rewrite N. cbn [obind]. eexists. split; [reflexivity|]. destruct (lines_not_empty _ _ n1 n2 N) as [Ne1 Ne2].
    apply plane_answers_listed; assumption.
  Qed.

  (** Arrays of different sizes, or fewer than three points: an exception. *)
  Theorem C86_rejects :
    (length lon1 <> length lat1 \/ length lon2 <> length lat2 ->
      forall b, (exists w, xover b = Throw w) /\ (exists w, xover_list b = Throw w)) /\
    (length lon1 = length lat1 -> length lon2 = length lat2 -> (length lon1 < 3 \/ length lon2 < 3)%nat ->
      (exists w, xover true = Throw w) /\ (exists w, xover_list true = Throw w)).
  Proof.
    unfold xover, xover_list, crossover, crossover_list, check_container_size. split.
    - intros H b. destruct (Nat.eqb_spec (length lon1) (length lat1)) as [E1|E1]; cbn [obind];
        [|split; eexists; reflexivity].
      destruct (Nat.eqb_spec (length lon2) (length lat2)) as [E2|E2]; cbn [obind]; [|split; eexists; reflexivity].
      destruct H; congruence.
    - intros L1 L2 H. rewrite L1, L2, !Nat.eqb_refl. cbn [obind].
      destruct (proj2 (C85_short (combine lon1 lat1) (combine lon2 lat2))) as [w ->].
      { rewrite !combine_len by assumption. lia. }
      cbn [obind]. split; eexists; reflexivity.
  Qed.

  (** [crossover] and [crossover_list] agree. *)
  Theorem C86_agree : forall n1 n2,
    (forall p p' q, same_place p p' -> distance p q == distance p' q) ->
    length lon1 = length lat1 -> length lon2 = length lat2 ->
    normalize_line_strings (combine lon1 lat1) (combine lon2 lat2) = Ok (n1, n2) ->
    match xover true with
    | Ok None => xover_list true = Ok []
    | Ok (Some a) => exists r, xover_list true = Ok r /\ length r = length (plane_intersection n1 n2) /\ r <> [] /\
        forall b, In b r -> same_place (fst a) (fst b) /\ snd a = snd b
    | _ => True
    end.
  Proof.
    intros n1 n2 Pr L1 L2 N. pose proof (C86_crossover n1 n2 L1 L2 N) as X.
    destruct (C86_list n1 n2 L1 L2 N) as (r & -> & Li).
    destruct (xover true) as [[a|]|w|w]; [| |exact I|exact I].
    - destruct X as (p & Ip & R & S). exists r. split; [reflexivity|].
      assert (G : forall ps r, (forall q, In q ps -> same_place q p) ->
        listed distance predicate lon1 lat1 lon2 lat2 n1 n2 ps r ->
        length r = length ps /\ forall b, In b r -> same_place (fst a) (fst b) /\ snd a = snd b).
      { clear -R Pr. intros ps r S Li. induction Li as [|q t b r Rq Li IH|q t r Fq Li IH].
        - split; [reflexivity|intros b []].
        - destruct IH as [IH1 IH2]; [intros; apply S; right; assumption|]. split; [cbn; congruence|].
          intros c [<-|Hc]; [|apply IH2; exact Hc].
          eapply reported_equal; [|exact R|exact Rq]. apply same_place_sym, S. left. reflexivity.
        - exfalso. eapply reported_not_far; [exact Pr| |exact R|exact Fq]. apply same_place_sym, S. left. reflexivity. }
      destruct (G _ _ S Li) as [G1 G2]. split; [exact G1|]. split; [|exact G2].
      intros ->. destruct (plane_intersection n1 n2); [destruct Ip|discriminate].
    - destruct X as [E|(p & Ip & F & S)].
      + rewrite E in Li. inversion Li. reflexivity.
      + f_equal. assert (G : forall ps r, (forall q, In q ps -> same_place q p) ->
          listed distance predicate lon1 lat1 lon2 lat2 n1 n2 ps r -> r = []); [|apply (G _ _ S Li)].
        clear -F Pr. intros ps r S Li. induction Li as [|q t b r Rq Li IH|q t r Fq Li IH].
        * reflexivity.
        * exfalso. eapply reported_not_far; [exact Pr| |exact Rq|exact F]. apply S. left. reflexivity.
        * apply IH. intros; apply S; right; assumption.
  Qed.

  (** End to end.  Suppose that the intersection of two lines of the plane is right: its
      points are on both lines, and it is not empty when the lines have a common point.
      Then a point returned is on both tracks, drawn on the cylinder. *)
  Theorem C86_on_both_tracks : forall u1 u2 g i j,
    (forall a b p, In p (plane_intersection a b) ->
      on_line (map fst a) (map snd a) p /\ on_line (map fst b) (map snd b) p) ->
    unrolled lon1 u1 -> unrolled lon2 u2 -> within_turn (lon1 ++ lon2) -> within_turn (u1 ++ u2) ->
    xover true = Ok (Some (g, (i, j))) ->
    on_track u1 lat1 g /\ on_track u2 lat2 g /\ -(180) <= fst g < 180 /\
    (i < length lon1)%nat /\ (j < length lon2)%nat /\
    distance g (point_of lon1 lat1 i) <= predicate /\ distance g (point_of lon2 lat2 j) <= predicate.
  Proof.
    intros u1 u2 g i j Snd U1 U2 W U X.
    destruct (Nat.eq_dec (length lon1) (length lat1)) as [L1|L1];
      [|destruct (proj1 C86_rejects (or_introl L1) true) as [[w Y] _]; congruence].
    destruct (Nat.eq_dec (length lon2) (length lat2)) as [L2|L2];
      [|destruct (proj1 C86_rejects (or_intror L2) true) as [[w Y] _]; congruence].
    destruct (normalize_line_strings (combine lon1 lat1) (combine lon2 lat2)) as [[n1 n2]|w|w] eqn:N.
    2,3: unfold xover, crossover, check_container_size in X; rewrite L1, L2, !Nat.eqb_refl in X; cbn [obind] in X;
      rewrite N in X; discriminate.
    pose proof (C86_crossover n1 n2 L1 L2 N) as Y. rewrite X in Y. destruct Y as (p & Ip & R & _).
    destruct (Snd _ _ _ Ip) as [O1 O2]. destruct R as ((M & B & E) & F1 & F2 & D1 & D2).
    destruct (C85_unrolled _ _ n1 n2 u1 u2 N) as (k1 & k2 & A1 & A2 & T1 & T2 & K1 & K2 & _);
      rewrite ?combine_fst by assumption; try assumption.
    rewrite combine_len in A1 by assumption. rewrite combine_len in A2 by assumption.
    rewrite combine_snd in T1, T2 by assumption.
    pose proof U1 as (Q1 & _). pose proof U2 as (Q2 & _).
    assert (Tr : forall (n : line) u lat k, on_line (map fst n) (map snd n) p -> map snd n = lat -> length n = length u ->
      (forall i, (i < length u)%nat -> at_ (map fst n) i == at_ u i + inject_Z k * 360) -> on_track u lat g).
    { intros n u lat k (m & s & [Lm Sm] & Ex & Ey) <- Ln Hk. rewrite map_length in Lm. exists m, s.
      split; [split; [lia|exact Sm]|]. split.
      - eapply same_lon_trans; [exact M|]. rewrite Ex.
        rewrite (along_shift u (map fst n) (length u) k m s (or_intror I) ltac:(lia) Hk). apply same_lon_turn.
      - rewrite E. exact Ey. }
    split; [eapply Tr; [exact O1|exact T1| |exact K1]; congruence|].
    split; [eapply Tr; [exact O2|exact T2| |exact K2]; congruence|].
    split; [exact B|]. split; [destruct F1 as [F1 _]; lia|].
    split; [destruct F2 as [F2 _]; lia|]. split; assumption.
  Qed.

  (** ... and, when no point is discarded because of the distance, [crossover] answers
      [None] exactly when the two tracks have no common point on the cylinder. *)
  Theorem C86_none_iff_disjoint : forall u1 u2,
    (forall a b p, In p (plane_intersection a b) ->
      on_line (map fst a) (map snd a) p /\ on_line (map fst b) (map snd b) p) ->
    (forall a b p, on_line (map fst a) (map snd a) p -> on_line (map fst b) (map snd b) p -> plane_intersection a b <> []) ->
    (forall p q, distance p q <= predicate) ->
    (3 <= length lon1)%nat -> (3 <= length lon2)%nat -> length lon1 = length lat1 -> length lon2 = length lat2 ->
    unrolled lon1 u1 -> unrolled lon2 u2 -> within_turn (lon1 ++ lon2) -> within_turn (u1 ++ u2) ->
    (xover true = Ok None <-> ~ exists p, on_track u1 lat1 p /\ on_track u2 lat2 p).
  Proof.
    intros u1 u2 Snd Cpl Far G1 G2 L1 L2 U1 U2 W U.
    destruct (normalize_line_strings (combine lon1 lat1) (combine lon2 lat2)) as [[n1 n2]|w|w] eqn:N.
    2: { exfalso. destruct (proj1 (C85_short (combine lon1 lat1) (combine lon2 lat2)) (ex_intro _ w N)) as [H|H];
         rewrite combine_len in H by assumption; lia. }
    2: { exfalso. unfold normalize_line_strings in N. destruct (_ || _)%bool in N; discriminate. }
    assert (V1 : unrolled (map fst (combine lon1 lat1)) u1) by (rewrite combine_fst by assumption; exact U1).
    assert (V2 : unrolled (map fst (combine lon2 lat2)) u2) by (rewrite combine_fst by assumption; exact U2).
    assert (VW : within_turn (map fst (combine lon1 lat1) ++ map fst (combine lon2 lat2))) by (rewrite !combine_fst by assumption; exact W).
    destruct (C85_unrolled _ _ n1 n2 u1 u2 N V1 V2 VW U) as (k1 & k2 & A1 & A2 & T1 & T2 & K1 & K2 & _).
    rewrite combine_len in A1 by assumption. rewrite combine_len in A2 by assumption.
    rewrite combine_snd in T1, T2 by assumption.
    pose proof U1 as (Q1 & _). pose proof U2 as (Q2 & _).
    pose proof (C86_crossover n1 n2 L1 L2 N) as X. split.
    - intros E [p (H1 & H2)]. rewrite E in X. destruct X as [X|(q & _ & (g & i & j & _ & _ & _ & D) & _)].
      + destruct H1 as (i & s & S1 & M1 & Y1), H2 as (j & t & S2 & M2 & Y2).
        pose proof (C85_meets _ _ n1 n2 u1 u2 N V1 V2 VW U i s j t S1 S2) as [Me _].
        apply (Cpl n1 n2 (along (map fst n1) i s, snd p)); [| |exact X].
        * exists i, s. rewrite map_length. split; [destruct S1; split; [lia|assumption]|]. cbn [fst snd]. split; [reflexivity|].
          rewrite T1. exact Y1.
        * exists j, t. rewrite map_length. split; [destruct S2; split; [lia|assumption]|]. cbn [fst snd]. split; [|rewrite T2; exact Y2].
          apply Me. eapply same_lon_trans; [apply same_lon_sym; exact M1|exact M2].
      + destruct D as [D|D]; pose proof (Far g (point_of lon1 lat1 i)); pose proof (Far g (point_of lon2 lat2 j)); lra.
    - intro H. destruct (plane_intersection n1 n2) as [|p ps] eqn:E.
      + unfold xover, crossover, check_container_size. rewrite L1, L2, !Nat.eqb_refl. cbn [obind]. rewrite N. cbn [obind].
        rewrite E. reflexivity.
      + exfalso. apply H. destruct (Snd n1 n2 p) as [O1 O2]; [rewrite E; left; reflexivity|].
        assert (Tr : forall (n : line) u lat k, on_line (map fst n) (map snd n) p -> map snd n = lat -> length n = length u ->
          (forall i, (i < length u)%nat -> at_ (map fst n) i == at_ u i + inject_Z k * 360) -> on_track u lat p).
        { intros n u lat k (m & s & [Lm Sm] & Ex & Ey) <- Ln Hk. rewrite map_length in Lm. exists m, s.
          split; [split; [lia|exact Sm]|]. split; [|exact Ey]. rewrite Ex.
          rewrite (along_shift u (map fst n) (length u) k m s (or_intror I) ltac:(lia) Hk). apply same_lon_turn. }
        exists p. split; [eapply Tr; [exact O1|exact T1| |exact K1]; congruence|eapply Tr; [exact O2|exact T2| |exact K2]; congruence].
  Qed.

  (** On the sphere or spheroid, when the query of the R*Tree returns one position,
      [near l p], for a line that is not empty: the points of the geodetic intersection,
      in order, for which the two points found are within the distance asked for. *)
  Theorem C86_geodetic : forall near : line -> pt -> nat,
    (forall l p, l <> [] -> rtree_nearest l p = [near l p]) ->
    (forall a b, a = [] \/ b = [] -> geodetic_intersection a b = []) ->
    length lon1 = length lat1 -> length lon2 = length lat2 ->
    let l1 := combine lon1 lat1 in
    let l2 := combine lon2 lat2 in
    let points := geodetic_intersection l1 l2 in
    let within p := Qle_bool (distance (nth (near l1 p) l1 (0, 0)) p) predicate &&
                    Qle_bool (distance (nth (near l2 p) l2 (0, 0)) p) predicate in
    let found p := (p, (near l1 p, near l2 p)) in
    xover_list false = Ok (map found (filter within points)) /\
    match xover false with
    | Ok None => points = [] \/ exists p t, points = p :: t /\ within p = false /\ forall q, In q points -> same_place q p
    | Ok (Some a) => exists p t, points = p :: t /\ within p = true /\ a = found p /\ forall q, In q points -> same_place q p
    | Throw _ => exists p q, In p points /\ In q points /\ ~ same_place p q
    | UB _ => False
    end.
  Proof.
    intros near Rt Em L1 L2 l1 l2 points within found.
    assert (Ne : forall p, In p points -> l1 <> [] /\ l2 <> []).
    { intros p Hp. split; intro H; unfold points in Hp; rewrite Em in Hp by auto; destruct Hp. }
    assert (Gn : forall p, In p points -> geodetic_nearest distance rtree_nearest l1 l2 p predicate =
       Ok (if within p then Some (near l1 p, near l2 p) else None)).
    { intros p Hp. destruct (Ne p Hp) as [N1 N2]. unfold geodetic_nearest, nearest_index, within.
      rewrite (Rt l1 p N1), (Rt l2 p N2). cbn [obind]. unfold Qltb.
      destruct (Qle_bool (distance (nth (near l1 p) l1 (0, 0)) p) predicate); cbn [negb andb]; [|reflexivity].
      destruct (Qle_bool (distance (nth (near l2 p) l2 (0, 0)) p) predicate); reflexivity. }
    unfold xover, xover_list, crossover, crossover_list, check_container_size. rewrite L1, L2, !Nat.eqb_refl. cbn [obind].
    fold l1 l2 points. split.
    - clear Ne. induction points as [|p t IH]; [reflexivity|]. cbn [geodetic_answers filter].
      rewrite (Gn p) by (left; reflexivity). cbn [obind]. rewrite IH by (intros; apply Gn; right; assumption). cbn [obind].
      destruct (within p); reflexivity.
    - pose proof (search_spec points) as S. destruct (search points) as [[p|]|w|w]; cbn [obind]; [|left; exact S|exact S|exact S].
      destruct S as [[t E] S]. rewrite (Gn p) by (rewrite E; left; reflexivity). cbn [obind].
      destruct (within p) eqn:Wp; cbn [option_map].
      + exists p, t. auto.
      + right. exists p, t. auto.
  Qed.
End Answers.
Print Assumptions C86_crossover.
Print Assumptions C86_list.
Print Assumptions C86_rejects.
Print Assumptions C86_agree.
Print Assumptions C86_on_both_tracks.
Print Assumptions C86_none_iff_disjoint.
Print Assumptions C86_geodetic.

(** A concrete case: the two tracks of [C85_ex], which meet near 181.57 degrees; the
    intersection is the exact one of these two lines.  The answer is brought back to
    [-180, 180) and the nearest points are numbers 1 and 1. *)
Definition seam_point : pt := (1271 # 7, -(5) # 14).
Example C86_ex :
  on_line [170; 182; 194] [-(10); 0; 10] seam_point /\ on_line [188; 178; 165] [-(10); 5; 10] seam_point /\
  exists g, crossover (fun _ _ => [seam_point; seam_point]) (fun _ _ => []) (fun _ _ => 5) (fun _ _ => [])
    (map fst seam1) (map snd seam1) (map fst seam2) (map snd seam2) 10 true = Ok (Some (g, (1, 1)%nat)) /\
    Qred (fst g) = -1249 # 7 /\ Qred (snd g) = -(5) # 14.
Proof.
  split; [|split].
  - exists 0%nat, (27 # 28). split; [split; [cbn; lia|split; vm_compute; discriminate]|]. split; vm_compute; reflexivity.
  - exists 0%nat, (9 # 14). split; [split; [cbn; lia|split; vm_compute; discriminate]|]. split; vm_compute; reflexivity.
  - eexists. split; [vm_compute; reflexivity|]. split; reflexivity.
Qed.
