(** Functions applied to arrays of positions (C119) and covers of polygons (C120). *)
From Verif Require Import Base BaseProofs ThreadModel ThreadProofs ThreadProps GeohashModel GeohashSpec GeohashProofs GeohashProofs2
  GeohashProofs3 GeohashProofs4 GeohashProofs5 GeohashProofs6 GeohashProofs7 GeohashProofs8 GeohashProps VectorModel.
From Coq Require Import Ascii Sorted.
Open Scope Z_scope.

(** A machine that has at least one processor. *)
Definition usual (num_threads hardware : Z) : Prop := 0 <= num_threads /\ 0 < hardware.
(** The value of the element [i] is [v i]. *)
Definition values_of {V : Type} (n : Z) (v : Z -> V -> Prop) (l : list (option V)) : Prop :=
  zlen l = n /\ forall i, 0 <= i < n -> exists x, nth_error l (Z.to_nat i) = Some (Some x) /\ v i x.

Lemma dispatch_some : forall size num hw, usual num hw -> exists l, dispatch_ranges size num hw = Ok l.
Proof.
  intros size num hw [A B]. unfold dispatch_ranges. destruct (num =? 1) eqn:E; [eexists; reflexivity|].
  destruct (num =? 0) eqn:E0; [destruct (Z.eqb_spec hw 0); [lia|eexists; reflexivity]|]. apply Z.eqb_neq in E0.
  destruct (Z.eqb_spec num 0); [lia|eexists; reflexivity].
Qed.
(** Every schedule can be brought to its end. *)
Lemma reach_end : forall (V : Type) (body : Z -> V + string) size num hw l, 0 <= size -> usual num hw ->
  dispatch_ranges size num hw = Ok l -> exists c, steps body (start_config size l) c /\ finished c.
Proof.
  intros V body size num hw l Hs [Hn Hh] E. destruct (C34_terminates V body size num hw l Hs Hn Hh E) as [P [bound B]].
  assert (G : forall k c n, (bound - n <= k)%nat -> nsteps body n (start_config size l) c -> steps body (start_config size l) c ->
            exists c', steps body (start_config size l) c' /\ finished c').
  { induction k as [|k IH]; intros c n Hk N St.
    - destruct (P c St) as [F|[c' S1]]; [exists c; split; assumption|]. exfalso. pose proof (B n c N).
      assert (N' : nsteps body (S n) (start_config size l) c').
      { clear -N S1. induction N; [econstructor; [exact S1|constructor]|]. econstructor; [eassumption|auto]. }
      pose proof (B _ _ N'). lia.
    - destruct (P c St) as [F|[c' S1]]; [exists c; split; assumption|].
      assert (N' : nsteps body (S n) (start_config size l) c').
      { clear -N S1. induction N; [econstructor; [exact S1|constructor]|]. econstructor; [eassumption|auto]. }
      assert (St' : steps body (start_config size l) c').
      { clear -St S1. induction St; [econstructor; [exact S1|constructor]|]. econstructor; [eassumption|auto]. }
      apply (IH c' (S n)); [pose proof (B _ _ N'); lia|exact N'|exact St']. }
  apply (G bound (start_config size l) O); [lia|constructor|constructor].
Qed.
Lemma run_exists : forall (V : Type) (body : Z -> V + string) size num hw, 0 <= size -> usual num hw -> exists r, run body size num hw r.
Proof.
  intros V body size num hw Hs U. destruct (dispatch_some size num hw U) as [l E]. destruct (reach_end V body size num hw l Hs U E) as (c & St & F).
  exists (answer c). eapply Run_done; eassumption.
Qed.
Lemma run_values : forall (V : Type) (body : Z -> V + string) size num hw r, 0 <= size -> usual num hw -> run body size num hw r ->
  (forall i, 0 <= i < size -> exists v, body i = inl v) ->
  exists l, r = Ok l /\ values_of size (fun i v => body i = inl v) l.
Proof.
  intros V body size num hw r Hs U R Good. destruct U as [Hn Hh]. destruct R as [l c E St F|w E].
  - destruct (C34_result V body size num hw l c Hs Hn Hh E St F Good) as (vs & A & L & W). exists (map Some vs). split; [exact A|].
    split; [unfold zlen; rewrite map_length; lia|]. intros i Hi. destruct (W i Hi) as (v & N & B). exists v. split; [rewrite nth_error_map, N; reflexivity|exact B].
  - exfalso. destruct (dispatch_some size num hw (conj Hn Hh)) as [l E']. congruence.
Qed.
Lemma run_throws : forall (V : Type) (body : Z -> V + string) size num hw r, 0 <= size -> usual num hw -> run body size num hw r ->
  (exists i w, 0 <= i < size /\ body i = inr w) -> exists w j, r = Throw w /\ 0 <= j < size /\ body j = inr w.
Proof.
  intros V body size num hw r Hs U R Bad. destruct U as [Hn Hh]. destruct R as [l c E St F|w E].
  - destruct (C34_error V body size num hw l c Hs Hn Hh E St F Bad) as (w & s & e & j & A & I & J & B & _). exists w, j. split; [exact A|]. split; [|exact B].
    destruct (C33_partition size num hw Hs Hn Hh) as (l' & E' & _ & Incl & _). assert (l' = l) by congruence. subst l'. specialize (Incl s e I). lia.
  - exfalso. destruct (dispatch_some size num hw (conj Hn Hh)) as [l E']. congruence.
Qed.

Lemma Forall2_length' : forall (A B : Type) (R : A -> B -> Prop) l m, Forall2 R l m -> length l = length m.
Proof. intros A B R l m H. induction H; cbn; congruence. Qed.
Lemma Forall2_nth' : forall (A B : Type) (R : A -> B -> Prop) l m, Forall2 R l m -> forall i a b, nth_error l i = Some a -> nth_error m i = Some b -> R a b.
Proof.
  intros A B R l m H. induction H as [|x y l m Hxy _ IH]; intros [|i] a b Ha Hb; cbn in Ha, Hb; try discriminate; [congruence|]. eapply IH; eassumption.
Qed.
Arguments Forall2_length' {A B R l m}. Arguments Forall2_nth' {A B R l m}.

(** * C119 arrays of positions *)
(** [coordinate_distances]: whatever the number of threads and their schedule, the element [i] of the
    answer is the distance between the two positions [i]; vectors of different sizes and unknown names are
    refused. *)
Theorem C119_distances : forall (W V : Type) (distance : strategy -> option W -> Q * Q -> Q * Q -> V + string) lon1 lat1 lon2 lat2 name wgs num hw,
  usual num hw ->
  (exists r, coordinate_distances distance lon1 lat1 lon2 lat2 name wgs num hw r) /\
  forall r, coordinate_distances distance lon1 lat1 lon2 lat2 name wgs num hw r ->
    (~ In name ["andoyer"; "thomas"; "vincenty"]%string -> exists w, r = Throw w) /\
    (~ (length lat1 = length lon1 /\ length lon2 = length lon1 /\ length lat2 = length lon1) -> exists w, r = Throw w) /\
    (forall s, (name, s) = ("andoyer"%string, Andoyer) \/ (name, s) = ("thomas"%string, Thomas) \/ (name, s) = ("vincenty"%string, Vincenty) ->
     length lat1 = length lon1 -> length lon2 = length lon1 -> length lat2 = length lon1 ->
     (forall p q, exists d, distance s wgs p q = inl d) ->
     exists l, r = Ok l /\ values_of (zlen lon1) (fun i d => exists x1 y1 x2 y2,
       nth_error lon1 (Z.to_nat i) = Some x1 /\ nth_error lat1 (Z.to_nat i) = Some y1 /\
       nth_error lon2 (Z.to_nat i) = Some x2 /\ nth_error lat2 (Z.to_nat i) = Some y2 /\
       distance s wgs (x1, y1) (x2, y2) = inl d) l).
Proof.
  intros W V distance lon1 lat1 lon2 lat2 name wgs num hw U.
  assert (Sz : same_sizes [lon1; lat1; lon2; lat2] = true <-> length lat1 = length lon1 /\ length lon2 = length lon1 /\ length lat2 = length lon1).
  { unfold same_sizes. cbn [forallb]. rewrite !andb_true_iff, !Z.eqb_eq. unfold zlen. intuition lia. }
  split.
  - destruct (parse_strategy name) as [s|w|w] eqn:E.
    + destruct (same_sizes [lon1; lat1; lon2; lat2]) eqn:Q.
      * destruct (run_exists V (fun ix => distance s wgs (at_ lon1 ix, at_ lat1 ix) (at_ lon2 ix, at_ lat2 ix)) (zlen lon1) num hw ltac:(unfold zlen; lia) U) as [r R].
        exists r. eapply CD_run; eassumption.
      * eexists. eapply CD_sizes; eassumption.
    + exists (Throw w). apply CD_name. exact E.
    + exfalso. unfold parse_strategy in E. repeat destruct (String.eqb _ _); discriminate.
  - intros r R. split; [|split].
    + intro N. destruct R as [w E|s E Q|s r E Q R]; [eexists; reflexivity|eexists; reflexivity|]. exfalso. apply N. unfold parse_strategy in E. cbn [In].
      destruct (String.eqb_spec name "andoyer"); [auto|]. destruct (String.eqb_spec name "thomas"); [auto|]. destruct (String.eqb_spec name "vincenty"); [auto|discriminate].
    + intro N. destruct R as [w E|s E Q|s r E Q R]; [eexists; reflexivity|eexists; reflexivity|]. apply Sz in Q. contradiction.
    + intros s Hs L1 L2 L3 Tot.
      assert (P : parse_strategy name = Ok s) by (destruct Hs as [H|[H|H]]; injection H as -> ->; reflexivity).
      destruct R as [w E|s' E Q|s' r E Q R]; [congruence| |].
      * assert (X : same_sizes [lon1; lat1; lon2; lat2] = true) by (apply Sz; auto). congruence.
      * assert (s' = s) by congruence. subst s'.
        destruct (run_values V _ (zlen lon1) num hw r ltac:(unfold zlen; lia) U R ltac:(intros; apply Tot)) as (l & -> & Vl). exists l. split; [reflexivity|].
        destruct Vl as [Le Vl]. split; [exact Le|]. intros i Hi. destruct (Vl i Hi) as (d & N & D). exists d. split; [exact N|].
        assert (At : forall m, length m = length lon1 -> nth_error m (Z.to_nat i) = Some (at_ m i)).
        { intros m Lm. unfold at_. apply nth_error_nth'. unfold zlen in Hi. lia. }
        exists (at_ lon1 i), (at_ lat1 i), (at_ lon2 i), (at_ lat2 i). rewrite !At by (assumption || reflexivity). auto 10.
Qed.
Print Assumptions C119_distances.

(** [covered_by]. *)
Theorem C119_covered_by : forall (covered : Q * Q -> bool + string) lon lat num hw, usual num hw ->
  (exists r, covered_by covered lon lat num hw r) /\
  forall r, covered_by covered lon lat num hw r ->
    (length lat <> length lon -> exists w, r = Throw w) /\
    (length lat = length lon -> (forall p, exists b, covered p = inl b) ->
     exists l, r = Ok l /\ values_of (zlen lon) (fun i b => exists x y,
       nth_error lon (Z.to_nat i) = Some x /\ nth_error lat (Z.to_nat i) = Some y /\ covered (x, y) = inl b) l) /\
    (length lat = length lon -> (exists x y w, In (x, y) (combine lon lat) /\ covered (x, y) = inr w) ->
     exists w, r = Throw w).
Proof.
  intros covered lon lat num hw U.
  assert (Sz : same_sizes [lon; lat] = true <-> length lat = length lon).
  { unfold same_sizes. cbn [forallb]. rewrite andb_true_r, Z.eqb_eq. unfold zlen. lia. }
  split.
  - destruct (same_sizes [lon; lat]) eqn:Q.
    + destruct (run_exists bool (fun ix => covered (at_ lon ix, at_ lat ix)) (zlen lon) num hw ltac:(unfold zlen; lia) U) as [r R].
      exists r. eapply CB_run; eassumption.
    + eexists. eapply CB_sizes; eassumption.
  - intros r R. split; [|split].
    + intro N. destruct R as [Q|r Q R]; [eexists; reflexivity|]. apply Sz in Q. contradiction.
    + intros L Tot. destruct R as [Q|r Q R]; [apply Sz in L; congruence|].
      destruct (run_values bool _ (zlen lon) num hw r ltac:(unfold zlen; lia) U R ltac:(intros; apply Tot)) as (l & -> & Vl). exists l. split; [reflexivity|].
      destruct Vl as [Le Vl]. split; [exact Le|]. intros i Hi. destruct (Vl i Hi) as (d & N & D). exists d. split; [exact N|].
      assert (At : forall m, length m = length lon -> nth_error m (Z.to_nat i) = Some (at_ m i)).
      { intros m Lm. unfold at_. apply nth_error_nth'. unfold zlen in Hi. lia. }
      exists (at_ lon i), (at_ lat i). rewrite !At by (congruence || reflexivity). auto.
    + intros L (x & y & w & I & B). destruct R as [Q|r Q R]; [apply Sz in L; congruence|].
      apply In_nth_error in I. destruct I as [k K].
      assert (Lk : (k < length lon)%nat).
      { assert (X : (k < length (combine lon lat))%nat) by (apply nth_error_Some; congruence). rewrite combine_length in X. lia. }
      assert (X : nth_error (combine lon lat) k = Some (nth k lon 0%Q, nth k lat 0%Q)).
      { rewrite (nth_error_nth' _ (0, 0)%Q) by (rewrite combine_length; lia). rewrite combine_nth by congruence. reflexivity. }
      destruct (run_throws bool _ (zlen lon) num hw r ltac:(unfold zlen; lia) U R) as (w' & j & -> & _).
      { exists (Z.of_nat k), w. split; [unfold zlen; lia|]. unfold at_. rewrite Nat2Z.id. rewrite <- B. f_equal. congruence. }
      exists w'. reflexivity.
Qed.
Print Assumptions C119_covered_by.

(** [LineString.closest_point] of vectors of the same size. *)
Theorem C119_closest : forall (closest : Q * Q -> (Q * Q) + string) lon lat num hw, usual num hw ->
  (exists r, closest_point closest lon lat num hw r) /\
  (length lat = length lon -> (forall p, exists q, closest p = inl q) ->
   forall r, closest_point closest lon lat num hw r ->
   exists lons lats, r = Ok (lons, lats) /\ length lons = length lon /\ length lats = length lon /\
     forall i x y, nth_error lon i = Some x -> nth_error lat i = Some y ->
       exists p, closest (x, y) = inl p /\ nth_error lons i = Some (Some (fst p)) /\ nth_error lats i = Some (Some (snd p))).
Proof.
  intros closest lon lat num hw U. split.
  - destruct (run_exists _ (closest_body closest lon lat) (zlen lon) num hw ltac:(unfold zlen; lia) U) as [r R]. eexists. econstructor. exact R.
  - intros L Tot r R. destruct R as [r R].
    destruct (run_values _ _ (zlen lon) num hw r ltac:(unfold zlen; lia) U R) as (l & -> & Vl).
    { intros i Hi. unfold closest_body. destruct (Z.ltb_spec i (zlen lat)); [|unfold zlen in *; lia]. destruct (Tot (at_ lon i, at_ lat i)) as [q ->]. eexists. reflexivity. }
    destruct Vl as [Le Vl]. cbn [obind]. unfold gather.
    destruct (oseq_forall2 (fun o (q : option (Q * Q)) => exists p, o = Some (Ok p) /\ q = Some p)
      (fun o : option (outcome (Q * Q)) => match o with Some (Ok p) => Ok (Some p) | Some (Throw w) => Throw w | Some (UB w) => UB w | None => Ok None end) l) as (pts & E & F).
    { apply Forall_forall. intros o I. apply In_nth_error in I. destruct I as [k K].
      assert (Lk : (k < length l)%nat) by (apply nth_error_Some; congruence).
      destruct (Vl (Z.of_nat k) ltac:(unfold zlen in *; lia)) as (v & N & B). rewrite Nat2Z.id in N. assert (o = Some v) by congruence. subst o.
      unfold closest_body in B. destruct (Z.ltb_spec (Z.of_nat k) (zlen lat)); [|unfold zlen in *; lia].
      destruct (closest (at_ lon (Z.of_nat k), at_ lat (Z.of_nat k))) as [p|]; [|discriminate]. assert (v = Ok p) by congruence. subst v.
      exists (Some p). split; [reflexivity|]. exists p. split; reflexivity. }
    rewrite E. cbn [obind]. eexists. eexists. split; [reflexivity|].
    assert (Lp : length pts = length lon) by (rewrite <- (Forall2_length' F); unfold zlen in Le; lia).
    split; [rewrite map_length; exact Lp|]. split; [rewrite app_length, map_length, repeat_length; lia|].
    intros i x y Hx Hy. assert (Li : (i < length lon)%nat) by (apply nth_error_Some; congruence).
    destruct (Vl (Z.of_nat i) ltac:(unfold zlen; lia)) as (v & N & B). rewrite Nat2Z.id in N.
    unfold closest_body in B. destruct (Z.ltb_spec (Z.of_nat i) (zlen lat)); [|unfold zlen in *; lia].
    unfold at_ in B. rewrite Nat2Z.id, (nth_error_nth _ _ _ Hx), (nth_error_nth _ _ _ Hy) in B.
    destruct (closest (x, y)) as [p|] eqn:C; [|discriminate]. assert (v = Ok p) by congruence. subst v. exists p. split; [reflexivity|].
    destruct (nth_error pts i) as [q|] eqn:Hq; [|apply nth_error_None in Hq; lia].
    destruct (Forall2_nth' F i _ _ N Hq) as (p' & E1 & E2). assert (p' = p) by congruence. subst p' q.
    rewrite nth_error_map, Hq. split; [reflexivity|]. rewrite nth_error_app1 by (rewrite map_length; lia). rewrite nth_error_map, Hq. reflexivity.
Qed.
Print Assumptions C119_closest.

(** Vectors of different sizes are not refused: when there are fewer latitudes, memory is read and
    written past the end of the vectors; when there are more, the last latitudes of the answer are not
    initialised. *)
Theorem C119_sizes_refuted : forall (closest : Q * Q -> (Q * Q) + string) lon lat num hw, usual num hw ->
  (forall p, exists q, closest p = inl q) -> forall r, closest_point closest lon lat num hw r ->
  ((length lat < length lon)%nat -> exists w, r = UB w) /\
  ((length lon < length lat)%nat -> exists lons lats, r = Ok (lons, lats) /\ length lons = length lon /\ length lats = length lat /\
     nth_error lats (length lon) = Some None).
Proof.
  intros closest lon lat num hw U Tot r R. destruct R as [r R].
  destruct (run_values _ _ (zlen lon) num hw r ltac:(unfold zlen; lia) U R) as (l & -> & Vl).
  { intros i Hi. unfold closest_body. destruct (Z.ltb_spec i (zlen lat)); [|eexists; reflexivity]. destruct (Tot (at_ lon i, at_ lat i)) as [q ->]. eexists. reflexivity. }
  destruct Vl as [Le Vl]. cbn [obind]. unfold gather. set (g := fun o : option (outcome (Q * Q)) => _).
  assert (Ok_ : forall i, 0 <= i < zlen lon -> i < zlen lat -> exists p, nth_error (map g l) (Z.to_nat i) = Some (Ok (Some p))).
  { intros i Hi Hl. destruct (Vl i Hi) as (v & N & B). unfold closest_body in B. destruct (Z.ltb_spec i (zlen lat)); [|lia].
    destruct (closest (at_ lon i, at_ lat i)) as [p|]; [|discriminate]. assert (v = Ok p) by congruence. subst v. exists p. rewrite nth_error_map, N. reflexivity. }
  split.
  - intro Lt. destruct (Vl (zlen lat) ltac:(unfold zlen; lia)) as (v & N & B). unfold closest_body in B. rewrite Z.ltb_irrefl in B.
    assert (Hu : nth_error (map g l) (length lat) = Some (UB "element past the end")).
    { rewrite nth_error_map. unfold zlen in N. rewrite Nat2Z.id in N. rewrite N. assert (v = UB "element past the end") by congruence. subst v. reflexivity. }
    assert (G : forall (m : list (outcome (option (Q * Q)))) k w, nth_error m k = Some (UB w) ->
              (forall i, (i < k)%nat -> exists p, nth_error m i = Some (Ok p)) -> oseq m = UB w).
    { clear. induction m as [|a m IH]; intros k w H F; [destruct k; discriminate|]. destruct k as [|k]; cbn [nth_error] in H.
      - assert (a = UB w) by congruence. subst a. reflexivity.
      - destruct (F O ltac:(lia)) as [p P]. cbn in P. assert (a = Ok p) by congruence. subst a. cbn [oseq obind].
        rewrite (IH k w H); [reflexivity|]. intros i Hi. destruct (F (S i) ltac:(lia)) as [q Hq]. exists q. exact Hq. }
    rewrite (G _ _ _ Hu); [eexists; reflexivity|]. intros i Hi. destruct (Ok_ (Z.of_nat i) ltac:(unfold zlen; lia) ltac:(unfold zlen; lia)) as [p P].
    rewrite Nat2Z.id in P. exists (Some p). exact P.
  - intro Lt.
    destruct (oseq_forall2 (fun o (q : option (Q * Q)) => True) g l) as (pts & E & F).
    { apply Forall_forall. intros o I. apply In_nth_error in I. destruct I as [k K]. assert (Lk : (k < length l)%nat) by (apply nth_error_Some; congruence).
      destruct (Ok_ (Z.of_nat k) ltac:(unfold zlen in *; lia) ltac:(unfold zlen in *; lia)) as [p P]. rewrite Nat2Z.id, nth_error_map, K in P. cbn [option_map] in P.
      exists (Some p). split; [congruence|exact I]. }
    rewrite E. cbn [obind]. eexists. eexists. split; [reflexivity|].
    assert (Lp : length pts = length lon) by (rewrite <- (Forall2_length' F); unfold zlen in Le; lia).
    split; [rewrite map_length; exact Lp|]. split; [rewrite app_length, map_length, repeat_length; lia|].
    rewrite nth_error_app2 by (rewrite map_length; lia). rewrite map_length, Lp, Nat.sub_diag. replace (length lat - length lon)%nat with (S (length lat - length lon - 1)) by lia. reflexivity.
Qed.
Print Assumptions C119_sizes_refuted.

Definition gap_lon (s : strategy) (_ : option unit) (p q : Q * Q) : Q + string := inl (match s with Thomas => Qabs (fst p - fst q) | _ => 0 end)%Q.
Example C119_ex : forall r, coordinate_distances gap_lon
    [1; 5]%Q [0; 0]%Q [4; 5]%Q [0; 0]%Q "thomas" None 3 8 r ->
  exists a b, r = Ok [Some a; Some b] /\ (a == 3 /\ b == 0)%Q.
Proof.
  intros r R. destruct (C119_distances unit Q gap_lon [1; 5]%Q [0; 0]%Q [4; 5]%Q [0; 0]%Q "thomas" None 3 8 ltac:(split; lia)) as [_ D].
  destruct (D r R) as (_ & _ & D3). destruct (D3 Thomas ltac:(auto) eq_refl eq_refl eq_refl ltac:(intros; eexists; reflexivity)) as (l & E & Le & Vl).
  destruct (Vl 0 ltac:(cbn; lia)) as (a & Na & x1 & y1 & x2 & y2 & H1 & H2 & H3 & H4 & Da). destruct (Vl 1 ltac:(cbn; lia)) as (b & Nb & u1 & v1 & u2 & v2 & G1 & G2 & G3 & G4 & Db).
  change (Z.to_nat 0) with 0%nat in *. change (Z.to_nat 1) with 1%nat in *. cbn [nth_error] in H1, H2, H3, H4, G1, G2, G3, G4. exists a, b. split.
  - rewrite E. f_equal. destruct l as [|p [|q [|z l]]]; unfold zlen in Le; cbn [length] in Le; try lia. cbn [nth_error] in Na, Nb. congruence.
  - assert (x1 = 1%Q) by congruence. assert (x2 = 4%Q) by congruence. assert (u1 = 5%Q) by congruence. assert (u2 = 5%Q) by congruence. subst.
    unfold gap_lon in Da, Db. cbn [fst] in Da, Db. injection Da as <-. injection Db as <-. split; reflexivity.
Qed.
