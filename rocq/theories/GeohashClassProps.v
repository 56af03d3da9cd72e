(** Theorems about the class [GeoHash] and the array functions (C115, C116). *)
From Verif Require Import Base BaseProofs MathModel MathProofs AxisModel GeohashModel GeohashSpec GeohashProofs GeohashProofs2
  GeohashProofs3 GeohashProofs4 GeohashProofs5 GeohashProofs6 GeohashProofs7 GeohashProofs8 GeohashClassModel GeohashProps.
From Coq Require Import Ascii.
Open Scope Z_scope.

Lemma of_nat_5 : forall n, Z.of_nat (5 * n) = 5 * Z.of_nat n. Proof. intros; lia. Qed.

Lemma norm_in : forall x, (-180 <= x)%Q -> (x < 180)%Q -> (normalize_angle x (-(180)) 360 == x)%Q.
Proof. intros x A B. apply normalize_angle_in_place; [reflexivity|]. split; [exact A|]. change (-(180) + 360)%Q with 180%Q. exact B. Qed.

Lemma norm_range : forall x, exists k : Z, (normalize_angle x (-(180)) 360 == x + 360 * inject_Z k)%Q /\
  (-180 <= normalize_angle x (-(180)) 360)%Q /\ (normalize_angle x (-(180)) 360 < 180)%Q.
Proof.
  intro x. destruct (normalize_angle_spec x (-(180)) 360 ltac:(reflexivity)) as (A & B & k & K).
  exists k. repeat split; [rewrite K; ring|exact A|]. change (-(180) + 360)%Q with 180%Q in B. exact B.
Qed.

(** * C115 the class *)

(** Building an object from a position: one code of the requested length, whose cell
    contains the position (its longitude being taken modulo 360 degrees). *)
Theorem C115_position : forall bmi2 lon lat n, (1 <= n <= 12)%nat -> (-90 <= lat <= 90)%Q ->
  exists t h k, ghc_make bmi2 lon lat (Z.of_nat n) = Ok t /\ length t = n /\ reads_as t 0 h /\
    is_code (5 * Z.of_nat n) h /\ ghc_precision t = Z.of_nat n /\ ghc_number_of_bits t = 5 * Z.of_nat n /\
    (-180 <= lon + 360 * inject_Z k < 180)%Q /\
    in_closed (cell_of (5 * n) h) (lon + 360 * inject_Z k) lat /\
    ((lat < 90)%Q -> in_half_open (cell_of (5 * n) h) (lon + 360 * inject_Z k) lat).
Proof.
  intros bmi2 lon lat n Hn [L1 L2]. destruct (norm_range lon) as (k & K & A & B).
  set (pt := Point (normalize_angle lon (-(180)) 360) lat).
  assert (R : in_range pt) by (unfold in_range, pt; cbn [p_lon p_lat]; repeat split; lra).
  destruct (gh_encode_ok bmi2 pt (5 * n) R ltac:(lia)) as (h & E & C & _ & _).
  destruct (encode_contains bmi2 pt (5 * n) h R ltac:(lia) E) as (_ & I & J).
  rewrite of_nat_5 in E, C. destruct (C26_roundtrip n h ltac:(lia) C) as (T1 & T2 & _ & _).
  exists (b32_encode h n), h, k. unfold ghc_make.
  destruct (12 <? Z.of_nat n) eqn:Q; [apply Z.ltb_lt in Q; lia|]. fold pt. unfold str_encode. rewrite E. cbn [obind].
  rewrite Nat2Z.id. split; [reflexivity|]. split; [exact T1|]. split; [exact T2|]. split; [exact C|].
  unfold ghc_number_of_bits, ghc_precision, zlen. rewrite T1. split; [reflexivity|]. split; [lia|].
  unfold in_closed, in_half_open, pt in *. cbn [p_lon p_lat] in *. rewrite K in *.
  split; [split; assumption|]. split; [exact I|]. intro H. apply J; lra.
Qed.
Print Assumptions C115_position.

(** Adding a whole number of turns to the longitude changes nothing. *)
Theorem C115_turns : forall bmi2 lon lat n k, (1 <= n <= 12)%nat -> (-90 <= lat <= 90)%Q ->
  ghc_make bmi2 (lon + 360 * inject_Z k) lat (Z.of_nat n) = ghc_make bmi2 lon lat (Z.of_nat n).
Proof.
  intros bmi2 lon lat n k Hn [L1 L2].
  destruct (norm_range lon) as (i & K & A & B). destruct (norm_range (lon + 360 * inject_Z k)) as (j & K' & A' & B').
  assert (E : (normalize_angle (lon + 360 * inject_Z k) (-(180)) 360 == normalize_angle lon (-(180)) 360)%Q).
  { assert (X : i = j + k).
    { rewrite K in A, B. rewrite K' in A', B'. assert (Y : (inject_Z i < inject_Z (j + k + 1))%Q) by (rewrite !inject_Z_plus; change (inject_Z 1) with 1%Q; lra).
      assert (Y' : (inject_Z (j + k) < inject_Z (i + 1))%Q) by (rewrite !inject_Z_plus; change (inject_Z 1) with 1%Q; lra).
      rewrite <- Zlt_Qlt in Y, Y'. lia. }
    rewrite K, K'. subst i. rewrite inject_Z_plus. ring. }
  unfold ghc_make. destruct (12 <? Z.of_nat n); [reflexivity|]. unfold str_encode. f_equal.
  rewrite <- of_nat_5, !gh_encode_code_at; try lia; try (unfold in_range; cbn [p_lon p_lat]; repeat split; lra).
  cbn [p_lon p_lat]. do 2 f_equal. unfold qidx.
  destruct (Qle_bool 180 (normalize_angle (lon + 360 * inject_Z k) (-(180)) 360)) eqn:X;
    [apply Qle_bool_iff in X; lra|].
  destruct (Qle_bool 180 (normalize_angle lon (-(180)) 360)) eqn:Y; [apply Qle_bool_iff in Y; lra|].
  apply Qfloor_comp. rewrite E. reflexivity.
Qed.
Print Assumptions C115_turns.

(** The centre of the cell of a code. *)
Lemma center_ok : forall bmi2 t v, (1 <= length t <= 12)%nat -> reads_as t 0 v ->
  exists p, ghc_center bmi2 t = Ok p /\ in_half_open (cell_of (5 * length t) v) (p_lon p) (p_lat p) /\
    (p_lon p == (west (cell_of (5 * length t) v) + east (cell_of (5 * length t) v)) / 2 /\
     p_lat p == (south (cell_of (5 * length t) v) + north (cell_of (5 * length t) v)) / 2)%Q.
Proof.
  intros bmi2 t v L R. apply reads_as_value in R. destruct R as [V ->].
  destruct (text_box bmi2 t V L) as (b & E & S). exists (centroid b). unfold ghc_center, ghc_bounding_box. rewrite E. cbn [obind].
  change (fold_left _ t 0) with (text_value t) in *.
  destruct (cell_of_wf (5 * length t) (text_value t)) as [W1 W2].
  split; [reflexivity|]. split; [apply centroid_inside; assumption|].
  destruct S as (S1 & S2 & S3 & S4). unfold cell_of_box in *. cbn [west east south north] in *.
  unfold centroid. cbn [p_lon p_lat]. rewrite S1, S2, S3, S4. split; reflexivity.
Qed.

Lemma half_open_bounds : forall p h lon lat, in_half_open (cell_of p h) lon lat ->
  (-180 <= lon /\ lon < 180 /\ -90 <= lat /\ lat < 90)%Q.
Proof.
  intros p h lon lat (A & B & C & D).
  destruct (cell_of_edges p h) as (W & E & S & N). cbn [west east south north] in *.
  pose proof (bits_nonneg p) as (_ & B1 & B2). pose proof (lonx_range p h). pose proof (latx_range p h).
  pose proof (edge_ge_r 180 (lonb (Z.of_nat p)) (lonx p h) ltac:(reflexivity) B1 ltac:(lia)).
  pose proof (edge_ge_r 90 (latb (Z.of_nat p)) (latx p h) ltac:(reflexivity) B2 ltac:(lia)).
  pose proof (edge_le_r 180 (lonb (Z.of_nat p)) (lonx p h + 1) ltac:(reflexivity) B1 ltac:(lia)).
  pose proof (edge_le_r 90 (latb (Z.of_nat p)) (latx p h + 1) ltac:(reflexivity) B2 ltac:(lia)).
  repeat split; lra.
Qed.

Lemma encode_text : forall bmi2 t v pt, (1 <= length t <= 12)%nat -> reads_as t 0 v ->
  in_half_open (cell_of (5 * length t) v) (p_lon pt) (p_lat pt) -> str_encode bmi2 pt (zlen t) = Ok t.
Proof.
  intros bmi2 t v pt L R I. unfold str_encode.
  assert (C : is_code (Z.of_nat (5 * length t)) v).
  { apply reads_as_value in R. destruct R as [V ->]. apply text_code; exact V. }
  pose proof (encode_of_cell bmi2 (5 * length t) v pt ltac:(lia) C I) as E. rewrite of_nat_5 in E.
  unfold zlen. rewrite E. cbn [obind]. rewrite Nat2Z.id. f_equal. apply (C26_decode t v ltac:(lia) R).
Qed.

Lemma make_text : forall bmi2 t v lon lat, (1 <= length t <= 12)%nat -> reads_as t 0 v ->
  in_half_open (cell_of (5 * length t) v) lon lat -> ghc_make bmi2 lon lat (zlen t) = Ok t.
Proof.
  intros bmi2 t v lon lat L R I. unfold ghc_make.
  destruct (12 <? zlen t) eqn:Q; [apply Z.ltb_lt in Q; unfold zlen in Q; lia|].
  apply (encode_text bmi2 t v); try assumption. cbn [p_lon p_lat].
  destruct (half_open_bounds _ _ _ _ I) as (A & B & _). unfold in_half_open in *. rewrite norm_in by assumption. exact I.
Qed.

(** A valid code gives back itself, rounded or not, in the core and in Python, and so does
    pickling, which rebuilds an object from its centre. *)
Theorem C115_text : forall bmi2 t v round, (1 <= length t <= 12)%nat -> reads_as t 0 v ->
  ghc_from_string bmi2 t round = Ok t /\ pgh_from_string bmi2 t round = Ok t /\ pgh_unpickle bmi2 t = Ok t.
Proof.
  intros bmi2 t v round L R.
  assert (F : ghc_from_string bmi2 t round = Ok t).
  { unfold ghc_from_string. destruct (12 <? zlen t) eqn:Q; [apply Z.ltb_lt in Q; unfold zlen in Q; lia|].
    assert (Hv : b32_validate t = true).
    { destruct (C26_nul t v [] ltac:(lia) R) as [_ H]. clear - H. induction t as [|c t IH]; [reflexivity|].
      cbn [b32_validate app] in *. destruct (Ascii.eqb c zero); [reflexivity|]. destruct (b32_validate_byte c); [auto|exact H]. }
    rewrite Hv. cbn [negb]. pose proof R as R'. apply reads_as_value in R'. destruct R' as [V Ev].
    destruct (text_decode bmi2 t round V L) as (pt & E & I). rewrite E. cbn [obind].
    apply (encode_text bmi2 t v); try assumption. subst v. exact I. }
  assert (P : pgh_unpickle bmi2 t = Ok t).
  { destruct (center_ok bmi2 t v L R) as (p & E & I & _). unfold pgh_unpickle, ghc_reduce. rewrite E. cbn [obind].
    unfold ghc_precision. apply (make_text bmi2 t v); assumption. }
  split; [exact F|]. split; [|exact P]. unfold pgh_from_string. rewrite F. cbn [obind]. exact P.
Qed.
Print Assumptions C115_text.

(** The centre and the box of an object are those of the cell of its code. *)
Theorem C115_box : forall bmi2 t v, (1 <= length t <= 12)%nat -> reads_as t 0 v ->
  let c := cell_of (5 * length t) v in
  (exists b, ghc_bounding_box bmi2 t = Ok b /\ same_cell (cell_of_box b) c) /\
  (exists p, ghc_center bmi2 t = Ok p /\ (p_lon p == (west c + east c) / 2 /\ p_lat p == (south c + north c) / 2)%Q).
Proof.
  intros bmi2 t v L R c. split.
  - apply reads_as_value in R. destruct R as [V ->]. apply text_box; assumption.
  - destruct (center_ok bmi2 t v L R) as (p & E & _ & M). exists p. auto.
Qed.
Print Assumptions C115_box.

(** The integer value of an object is the number its code writes in base 32. *)
Theorem C115_integer : forall bmi2 t v round, (1 <= length t <= 12)%nat -> reads_as t 0 v ->
  ghc_integer_value bmi2 t round = Ok v.
Proof.
  intros bmi2 t v round L R. unfold ghc_integer_value. pose proof R as R'. apply reads_as_value in R'. destruct R' as [V Ev].
  destruct (text_decode bmi2 t round V L) as (pt & E & I). rewrite E. cbn [obind].
  replace (ghc_number_of_bits t) with (Z.of_nat (5 * length t)) by (unfold ghc_number_of_bits, ghc_precision, zlen; lia).
  apply encode_of_cell; [lia| |]; subst v; [apply text_code; exact V|exact I].
Qed.
Print Assumptions C115_integer.

(** The neighbours of an object away from the borders of the map: the eight cells around,
    clockwise from north. *)
Theorem C115_neighbors_partial : forall bmi2 t v, (1 <= length t <= 12)%nat -> reads_as t 0 v ->
  (-180 < west (cell_of (5 * length t) v) /\ east (cell_of (5 * length t) v) < 180 /\
   -90 < south (cell_of (5 * length t) v) /\ north (cell_of (5 * length t) v) < 90)%Q ->
  exists l, ghc_neighbors bmi2 t = Ok l /\
    Forall2 (fun d s => length s = length t /\ exists g, reads_as s 0 g /\
      shifted (cell_of (5 * length t) v) (cell_of (5 * length t) g) (fst d) (snd d)) compass l.
Proof.
  intros bmi2 t v L R H. pose proof R as R'. apply reads_as_value in R'. destruct R' as [V Ev].
  assert (C : is_code (Z.of_nat (5 * length t)) v) by (subst v; apply text_code; exact V).
  destruct (C31_interior bmi2 (5 * length t) v ltac:(lia) C H) as (l & E & F).
  unfold ghc_neighbors. rewrite (C115_integer bmi2 t v false L R). cbn [obind].
  replace (ghc_number_of_bits t) with (Z.of_nat (5 * length t)) by (unfold ghc_number_of_bits, ghc_precision, zlen; lia).
  rewrite E. cbn [obind]. unfold ghc_precision, zlen. rewrite Nat2Z.id.
  exists (map (fun h => b32_encode h (length t)) l). clear E H. set (cc := cell_of (5 * length t) v) in *. clearbody cc.
  induction F as [|d g ds l [Cg Sg] F IH]; [split; [reflexivity|constructor]|]. destruct IH as [IH1 IH2].
  rewrite of_nat_5 in Cg. destruct (C26_roundtrip (length t) g ltac:(lia) Cg) as (T1 & T2 & _).
  cbn [map oseq]. destruct (C115_text bmi2 (b32_encode g (length t)) g false ltac:(lia) T2) as (T3 & _).
  rewrite T3. cbn [obind]. rewrite IH1. cbn [obind]. split; [reflexivity|]. constructor; [|exact IH2].
  split; [exact T1|]. exists g. split; [exact T2|exact Sg].
Qed.
Print Assumptions C115_neighbors_partial.

(** What is refused: more than twelve characters, a character outside the alphabet. *)
Theorem C115_refused : forall bmi2,
  (forall lon lat n, 12 < n -> ghc_make bmi2 lon lat n = Throw "GeoHash precision must be <= 12") /\
  (forall t round, (12 < length t)%nat -> exists w, ghc_from_string bmi2 t round = Throw w) /\
  (forall t v c rest round, reads_as t 0 v -> c <> zero -> (forall d, ~ is_digit c d) ->
     exists w, ghc_from_string bmi2 (t ++ c :: rest) round = Throw w) /\
  (forall n, 12 < n -> exists w, ghc_error_with_precision n = Throw w).
Proof.
  intro bmi2. split; [|split; [|split]].
  - intros lon lat n H. unfold ghc_make. apply Z.ltb_lt in H. rewrite H. reflexivity.
  - intros t round H. unfold ghc_from_string. destruct (12 <? zlen t) eqn:Q; [eexists; reflexivity|].
    apply Z.ltb_ge in Q. unfold zlen in Q. lia.
  - intros t v c rest round R Hc Hd. unfold ghc_from_string. destruct (12 <? _); [eexists; reflexivity|].
    pose proof (C26_invalid t v c rest R Hc Hd) as H.
    assert (X : b32_validate (t ++ c :: rest) = false) by tauto. rewrite X. eexists; reflexivity.
  - intros n H. unfold ghc_error_with_precision. apply Z.ltb_lt in H. rewrite H. eexists; reflexivity.
Qed.
Print Assumptions C115_refused.

(** A precision of zero is documented as refused; it is not: the code of a position shifts a
    64-bit word by 64 places, and so does the decoding of the empty text, or of a text that
    starts with a NUL. *)
Theorem C115_empty_refuted : forall bmi2 lon lat, (-90 <= lat <= 90)%Q ->
  ghc_make bmi2 lon lat 0 = UB "shift count" /\
  ghc_from_string bmi2 [] false = UB "shift count" /\
  ghc_from_string bmi2 [zero] false = UB "shift count" /\
  ghc_error_with_precision 0 = Ok (360 * inv_power2 0, 180 * inv_power2 0)%Q.
Proof.
  intros bmi2 lon lat [L1 L2]. destruct (norm_range lon) as (k & K & A & B).
  repeat split; try (destruct bmi2; reflexivity).
  unfold ghc_make. cbn [Z.ltb Z.compare]. unfold str_encode, gh_encode. cbn [p_lon p_lat].
  pose proof (encoder_ok bmi2 (Point (normalize_angle lon (-(180)) 360) lat)) as E.
  cbn [p_lon p_lat] in E. rewrite E by (unfold in_range; cbn [p_lon p_lat]; repeat split; lra). reflexivity.
Qed.
Print Assumptions C115_empty_refuted.

(** A text cut by a NUL character is accepted and gives a code longer than the text read:
    not the code written. *)
Theorem C115_nul_refuted :
  ghc_from_string true ["e"; zero]%char false = Ok (list_ascii_of_string "es") /\
  ghc_from_string true ["e"%char] false = Ok (list_ascii_of_string "e").
Proof. split; vm_compute; reflexivity. Qed.
Print Assumptions C115_nul_refuted.

Example C115_ex :
  ghc_make true (-5603 # 1000) (42605 # 1000) 5 = Ok (list_ascii_of_string "ezs42") /\
  ghc_make true (354397 # 1000) (42605 # 1000) 5 = Ok (list_ascii_of_string "ezs42") /\
  pgh_from_string false (list_ascii_of_string "ezs42") true = Ok (list_ascii_of_string "ezs42") /\
  ghc_neighbors true (list_ascii_of_string "ezs42") =
    Ok (map list_ascii_of_string ["ezs48"; "ezs49"; "ezs43"; "ezs41"; "ezs40"; "ezefp"; "ezefr"; "ezefx"]%string) /\
  (-180 < west (cell_of 25 14672002) /\ east (cell_of 25 14672002) < 180)%Q.
Proof. repeat split; vm_compute; reflexivity. Qed.
