(** Covers of polygons by geohash codes (C120). *)
From Verif Require Import Base BaseProofs ThreadModel ThreadProofs ThreadProps GeohashModel GeohashSpec GeohashProofs GeohashProofs2
  GeohashProofs3 GeohashProofs4 GeohashProofs5 GeohashProofs6 GeohashProofs7 GeohashProofs8 GeohashProps GeohashClassModel GeohashClassProps3 VectorModel VectorProps.
From Coq Require Import Ascii Sorted.
Open Scope Z_scope.

Lemma oseq_in : forall (A : Type) (l : list (outcome A)) r, oseq l = Ok r -> forall o, In o l -> exists a, o = Ok a.
Proof.
  intros A l. induction l as [|a l IH]; intros r H o I; [destruct I|]. cbn [oseq] in H. destruct a as [a| |]; try discriminate. cbn [obind] in H.
  destruct (oseq l) as [r'| |] eqn:E; try discriminate. destruct I as [<-|I]; [eexists; reflexivity|]. eapply IH; [reflexivity|exact I].
Qed.
Lemma oseq_flat_map : forall (A B C : Type) (f : A -> list (outcome B)) (g : A -> list B) l,
  (forall a, In a l -> oseq (f a) = Ok (g a)) -> oseq (flat_map f l) = Ok (flat_map g l).
Proof.
  intros A B C f g l. assert (App : forall (x y : list (outcome B)) u v, oseq x = Ok u -> oseq y = Ok v -> oseq (x ++ y) = Ok (u ++ v)).
  { clear. induction x as [|a x IH]; intros y u v H1 H2; cbn [oseq app] in *; [assert (u = []) by congruence; subst u; exact H2|].
    destruct a as [a| |]; try discriminate. cbn [obind] in *. destruct (oseq x) as [r| |] eqn:E; try discriminate. cbn [obind] in H1.
    rewrite (IH y r v eq_refl H2). cbn [obind]. assert (u = a :: r) by congruence. subst u. reflexivity. }
  induction l as [|a l IH]; intro H; [reflexivity|]. cbn [flat_map]. apply App; [apply H; left; reflexivity|apply IH; intros; apply H; right; assumption].
Qed.
Lemma filter_flat_map : forall (A B : Type) (k : B -> bool) (f : A -> list B) l, filter k (flat_map f l) = flat_map (fun a => filter k (f a)) l.
Proof. intros. induction l as [|a l IH]; [reflexivity|]. cbn [flat_map]. rewrite filter_app, IH. reflexivity. Qed.
Lemma map_flat_map : forall (A B C : Type) (k : B -> C) (f : A -> list B) l, map k (flat_map f l) = flat_map (fun a => map k (f a)) l.
Proof. intros. induction l as [|a l IH]; [reflexivity|]. cbn [flat_map]. rewrite map_app, IH. reflexivity. Qed.
Lemma flat_map_in_ext : forall (A B : Type) (f g : A -> list B) l, (forall a, In a l -> f a = g a) -> flat_map f l = flat_map g l.
Proof. intros A B f g l H. induction l as [|a l IH]; [reflexivity|]. cbn [flat_map]. rewrite H by (left; reflexivity). rewrite IH; [reflexivity|]. intros; apply H; right; assumption. Qed.

Section Cover.
  Variables (bmi2 : bool) (intersects : box -> bool).
  Definition keep (bits : Z) (h : Z) : bool := match bounding_box bmi2 h bits with Ok b => intersects b | _ => false end.

  Lemma zrange_nth_b : forall n i, 0 <= i < n -> nth_error (zrange n) (Z.to_nat i) = Some i.
  Proof.
    intros n i H. unfold zrange. rewrite nth_error_map, (nth_error_nth' _ O) by (rewrite seq_length; lia). rewrite seq_nth by lia. cbn. f_equal. lia.
  Qed.

  (** The run, when the cells of the grid have codes and boxes. *)
  Lemma cover_run : forall pt bits precision nlon nlat num hw r code, usual num hw -> 0 <= nlat ->
    (forall lat lon, 0 <= lat < nlat -> 0 <= lon < nlon -> cell_code bmi2 pt bits lat lon = Ok (code lat lon) /\
       exists b, bounding_box bmi2 (code lat lon) bits = Ok b) ->
    run (mask_body bmi2 intersects pt bits nlon) nlat num hw r ->
    (olet mask := r in select_cell bmi2 pt bits precision nlon nlat mask) =
      Ok (map (fun h => b32_encode h (Z.to_nat precision)) (filter (keep bits) (flat_map (fun lat => map (code lat) (zrange nlon)) (zrange nlat)))).
  Proof.
    intros pt bits precision nlon nlat num hw r code U Hn Good R.
    assert (Row : forall lat, 0 <= lat < nlat -> mask_row bmi2 intersects pt bits nlon lat = Ok (map (fun lon => keep bits (code lat lon)) (zrange nlon))).
    { intros lat Hl. unfold mask_row. apply oseq_map_ok. intros lon I. apply in_zrange in I. destruct (Good lat lon Hl I) as (-> & b & B). cbn [obind].
      unfold keep. rewrite B. reflexivity. }
    destruct (run_values _ _ nlat num hw r Hn U R) as (l & -> & Le & Vl).
    { intros i Hi. unfold mask_body. rewrite (Row i Hi). eexists. reflexivity. }
    cbn [obind]. unfold select_cell.
    assert (M : forall lat lon, 0 <= lat < nlat -> 0 <= lon < nlon -> mask_at l lon lat = keep bits (code lat lon)).
    { intros lat lon Hl Ho. unfold mask_at. destruct (Vl lat Hl) as (row & N & B). rewrite N. unfold mask_body in B. rewrite (Row lat Hl) in B.
      assert (row = map (fun lon => keep bits (code lat lon)) (zrange nlon)) by congruence. subst row. apply nth_error_nth.
      rewrite nth_error_map, zrange_nth_b by exact Ho. reflexivity. }
    rewrite filter_flat_map, map_flat_map. apply (oseq_flat_map _ _ unit). intros lat Il. apply in_zrange in Il.
    assert (G : forall cols, (forall lon, In lon cols -> 0 <= lon < nlon) ->
      oseq (flat_map (fun lon => if mask_at l lon lat then [olet h := cell_code bmi2 pt bits lat lon in Ok (b32_encode h (Z.to_nat precision))] else []) cols) =
      Ok (map (fun h => b32_encode h (Z.to_nat precision)) (filter (keep bits) (map (code lat) cols)))).
    { induction cols as [|c cols IH]; intro Hc; [reflexivity|]. cbn [flat_map map filter]. pose proof (Hc c (or_introl eq_refl)) as H1.
      specialize (IH (fun lon I => Hc lon (or_intror I))). rewrite (M lat c Il H1). destruct (keep bits (code lat c)); [|exact IH].
      cbn [app oseq]. destruct (Good lat c Il H1) as [-> _]. cbn [obind]. rewrite IH. reflexivity. }
    apply G. intros lon I. apply in_zrange. exact I.
  Qed.

  (** The grid of the envelope. *)
  Lemma cover_grid : forall env p, (1 <= p <= 62)%nat -> wf_box env ->
    exists h nlon nlat pt code l, grid_properties bmi2 env (Z.of_nat p) = Ok (h, nlon, nlat) /\ gh_decode bmi2 h (Z.of_nat p) false = Ok pt /\
      0 <= nlat /\ bounding_boxes bmi2 env (Z.of_nat p) = Ok l /\ l = flat_map (fun lat => map (code lat) (zrange nlon)) (zrange nlat) /\
      (forall lat lon, 0 <= lat < nlat -> 0 <= lon < nlon -> cell_code bmi2 pt (Z.of_nat p) lat lon = Ok (code lat lon) /\
         exists b, bounding_box bmi2 (code lat lon) (Z.of_nat p) = Ok b).
  Proof.
    intros env p Hp Hw. assert (E : exists l, bounding_boxes bmi2 env (Z.of_nat p) = Ok l).
    { destruct (bounding_boxes_block bmi2 env p Hp Hw) as [[_ E]|[_ E]]; eexists; exact E. }
    destruct E as [l E]. pose proof E as E0. unfold bounding_boxes in E.
    destruct (error_with_precision (Z.of_nat p)) as [elon elat] eqn:Er.
    destruct (grid_properties bmi2 env (Z.of_nat p)) as [[[h nlon] nlat]| |] eqn:G; try discriminate. cbn [obind] in E.
    destruct (gh_decode bmi2 h (Z.of_nat p) false) as [pt| |] eqn:D; try discriminate. cbn [obind] in E.
    set (code := fun lat lon => match cell_code bmi2 pt (Z.of_nat p) lat lon with Ok h => h | _ => 0 end).
    assert (Cc : forall lat lon, 0 <= lat < nlat -> 0 <= lon < nlon -> cell_code bmi2 pt (Z.of_nat p) lat lon = Ok (code lat lon)).
    { intros lat lon Hl Ho. assert (I : In (cell_code bmi2 pt (Z.of_nat p) lat lon)
        (flat_map (fun lat => map (fun lon => gh_encode bmi2 (Point (p_lon pt + inject_Z lon * elon) (p_lat pt + inject_Z lat * elat)) (Z.of_nat p)) (zrange nlon)) (zrange nlat))).
      { apply in_flat_map. exists lat. split; [apply in_zrange; exact Hl|]. apply in_map_iff. exists lon. split; [unfold cell_code; rewrite Er; reflexivity|apply in_zrange; exact Ho]. }
      destruct (oseq_in _ _ _ E _ I) as [a Ha]. unfold code. rewrite Ha. reflexivity. }
    exists h, nlon, (Z.max 0 nlat), pt, code, l.
    assert (Nl : 0 <= nlat).
    { destruct (grid_block bmi2 env p Hp Hw) as (h' & a0 & b0 & nc & nr & G' & _ & _ & A0 & A1 & A2 & A3 & A4 & A5). rewrite G' in G. assert (nlat = nr) by congruence. lia. }
    rewrite Z.max_r by exact Nl. split; [reflexivity || exact G|]. split; [reflexivity || exact D|]. split; [exact Nl|]. split; [exact E0|]. split.
    - assert (X : oseq (flat_map (fun lat => map (fun lon => gh_encode bmi2 (Point (p_lon pt + inject_Z lon * elon) (p_lat pt + inject_Z lat * elat)) (Z.of_nat p)) (zrange nlon)) (zrange nlat)) =
                  Ok (flat_map (fun lat => map (code lat) (zrange nlon)) (zrange nlat))); [|congruence].
      apply (oseq_flat_map _ _ unit). intros lat I. apply in_zrange in I. apply oseq_map_ok. intros lon J. apply in_zrange in J.
      rewrite <- (Cc lat lon I J). unfold cell_code. rewrite Er. reflexivity.
    - intros lat lon Hl Ho. split; [apply Cc; assumption|]. destruct (no_last p (code lat lon) ltac:(lia)) as [HC HR].
      destruct (bounding_box_ok bmi2 p (code lat lon) ltac:(lia) HC HR) as (b & B & _). exists b. exact B.
  Qed.
End Cover.

(** The text of a code of [n] characters and its box. *)
Lemma text_of : forall bmi2 n h, (1 <= n <= 12)%nat -> is_code (Z.of_nat (5 * n)) h ->
  str_bounding_box bmi2 (b32_encode h n) = bounding_box bmi2 h (Z.of_nat (5 * n)).
Proof.
  intros bmi2 n h Hn Hc. unfold str_bounding_box. replace (Z.of_nat (5 * n)) with (5 * Z.of_nat n) in * by lia.
  destruct (C26_roundtrip n h ltac:(lia) Hc) as (_ & _ & _ & T). rewrite T. reflexivity.
Qed.

(** Whatever the number of threads and their schedule: the codes answered are those of the cells of
    [bounding_boxes(envelope)] that intersect the polygon, each once, row by row. *)
Theorem C120_cover : forall bmi2 (intersects : box -> bool) env n num hw, (1 <= n <= 12)%nat -> usual num hw ->
  box_on_earth (p_lon (min_corner env)) (p_lon (max_corner env)) (p_lat (min_corner env)) (p_lat (max_corner env)) ->
  (exists r, polygon_boxes bmi2 intersects env (Z.of_nat n) num hw r) /\
  forall r, polygon_boxes bmi2 intersects env (Z.of_nat n) num hw r ->
    exists all codes, str_bounding_boxes bmi2 env (Z.of_nat n) = Ok all /\ r = Ok codes /\ NoDup codes /\
      (forall t, In t codes <-> In t all /\ exists b, str_bounding_box bmi2 t = Ok b /\ intersects b = true) /\
      (forall i j s t, (i < j)%nat -> nth_error codes i = Some s -> nth_error codes j = Some t ->
         exists h g, reads_as s 0 h /\ reads_as t 0 g /\ before_in_rows (cell_of (5 * n) h) (cell_of (5 * n) g)).
Proof.
  intros bmi2 intersects env n num hw Hn U Hb. pose proof Hb as Hw. apply wf_box_earth in Hw.
  destruct (cover_grid bmi2 intersects env (5 * n) ltac:(lia) Hw) as (h0 & nlon & nlat & pt & code & l & G & D & Nl & E & El & Good).
  destruct (C32_order bmi2 env (5 * n) ltac:(lia) Hb) as (l' & E' & Nd & So). assert (l' = l) by congruence. subst l'. clear E'.
  assert (P5 : Z.of_nat n * 5 = Z.of_nat (5 * n)) by lia.
  assert (Cd : forall h, In h l -> is_code (Z.of_nat (5 * n)) h).
  { intros h I. destruct (grid_block bmi2 env (5 * n) ltac:(lia) Hw) as (h' & a0 & b0 & nc & nr & _ & _ & E2 & A0 & A1 & A2 & A3 & A4 & A5).
    assert (X : l = block (5 * n) a0 b0 nc nr) by congruence. rewrite X in I. unfold block in I. apply in_flat_map in I. destruct I as (j & Ij & I). apply in_map_iff in I. destruct I as (i & <- & Ii).
    apply in_zrange in Ij, Ii. apply code_at_ok; lia. }
  split.
  - destruct (run_exists _ (mask_body bmi2 intersects pt (Z.of_nat (5 * n)) nlon) nlat num hw Nl U) as [r R]. eexists.
    eapply PB_run; [lia| | |]; rewrite P5; eassumption.
  - intros r R.
    assert (Er : r = Ok (map (fun h => b32_encode h n) (filter (keep bmi2 intersects (Z.of_nat (5 * n))) l))).
    { destruct R as [L|w L G2|w L G2|h1 nlon1 nlat1 pt1 r L G2 D2 R]; try rewrite P5 in *; [lia|congruence|congruence|].
      assert (h1 = h0) by congruence. assert (nlon1 = nlon) by congruence. assert (nlat1 = nlat) by congruence. subst h1 nlon1 nlat1. assert (pt1 = pt) by congruence. subst pt1.
      rewrite (cover_run bmi2 intersects pt _ (Z.of_nat n) nlon nlat num hw r code U Nl Good R). rewrite Nat2Z.id, El. reflexivity. }
    set (kept := filter (keep bmi2 intersects (Z.of_nat (5 * n))) l) in *.
    assert (Kd : forall h, In h kept -> In h l) by (intros h I; apply filter_In in I; tauto).
    assert (Nk : NoDup kept) by (apply NoDup_filter; exact Nd).
    assert (Inj : forall h g, In h l -> In g l -> b32_encode h n = b32_encode g n -> h = g).
    { intros h g I J Q. apply (b32_encode_inj n); [replace (5 * Z.of_nat n) with (Z.of_nat (5 * n)) by lia; auto|replace (5 * Z.of_nat n) with (Z.of_nat (5 * n)) by lia; auto|exact Q]. }
    exists (map (fun h => b32_encode h n) l), (map (fun h => b32_encode h n) kept).
    split; [unfold str_bounding_boxes; rewrite P5, E; cbn [obind]; rewrite Nat2Z.id; reflexivity|]. split; [exact Er|]. split; [|split].
    + clearbody kept. clear -Nk Kd Inj. revert Nk Kd. induction kept as [|h k IH]; intros Nk Kd; cbn [map]; constructor.
      * intro I. apply in_map_iff in I. destruct I as (g & Q & I). inversion Nk as [|? ? N1 N2]; subst. apply N1.
        replace h with g; [exact I|]. apply Inj; [apply Kd; right; exact I|apply Kd; left; reflexivity|exact Q].
      * inversion Nk; subst. apply IH; [assumption|]. intros g I. apply Kd. right. exact I.
    + intro t. split.
      * intro I. apply in_map_iff in I. destruct I as (h & <- & I). split; [apply (in_map (fun h => b32_encode h n)); apply Kd; exact I|]. apply filter_In in I. destruct I as [I K].
        unfold keep in K. destruct (bounding_box bmi2 h (Z.of_nat (5 * n))) as [b| |] eqn:B; try discriminate. exists b. split; [rewrite text_of by auto; exact B|exact K].
      * intros [I (b & B & K)]. apply in_map_iff in I. destruct I as (h & <- & I). apply (in_map (fun h => b32_encode h n)). apply filter_In. split; [exact I|].
        rewrite text_of in B by auto. unfold keep. rewrite B. exact K.
    + intros i j s t Lt Hs Ht. rewrite nth_error_map in Hs, Ht.
      destruct (nth_error kept i) as [h|] eqn:Hi; [|discriminate]. destruct (nth_error kept j) as [g|] eqn:Hj; [|discriminate]. cbn [option_map] in Hs, Ht.
      exists h, g. assert (Ih : In h kept) by (eapply nth_error_In; exact Hi). assert (Ig : In g kept) by (eapply nth_error_In; exact Hj).
      assert (C5 : 5 * Z.of_nat n = Z.of_nat (5 * n)) by lia.
      destruct (C26_roundtrip n h ltac:(lia) ltac:(rewrite C5; auto)) as (_ & T1 & _). destruct (C26_roundtrip n g ltac:(lia) ltac:(rewrite C5; auto)) as (_ & T2 & _).
      split; [replace s with (b32_encode h n) by congruence; exact T1|]. split; [replace t with (b32_encode g n) by congruence; exact T2|].
      assert (Sk : StronglySorted (fun h g => before_in_rows (cell_of (5 * n) h) (cell_of (5 * n) g)) kept).
      { unfold kept. clear -So. induction So as [|a l S IH F]; [constructor|]. cbn [filter]. destruct (keep _ _ _ a); [|exact IH]. constructor; [exact IH|].
        rewrite Forall_forall in *. intros x I. apply filter_In in I. apply F. tauto. }
      clear -Sk Hi Hj Lt. revert i j Lt Hi Hj. induction Sk as [|a k S IH F]; intros i j Lt Hi Hj; [destruct i; discriminate|].
      destruct j as [|j]; [lia|]. destruct i as [|i]; cbn [nth_error] in Hi, Hj.
      * assert (a = h) by congruence. subst a. rewrite Forall_forall in F. apply F. eapply nth_error_In; exact Hj.
      * eapply IH; [|exact Hi|exact Hj]. lia.
Qed.
Print Assumptions C120_cover.

(** Hence, when the north-east corner of the envelope is a corner of the cells, no cell that intersects
    the polygon is missed: the code of any position of the envelope is present as soon as its cell
    intersects the polygon. *)
Theorem C120_complete_partial : forall bmi2 (intersects : box -> bool) env n num hw r lon lat t b, (1 <= n <= 12)%nat -> usual num hw ->
  box_on_earth (p_lon (min_corner env)) (p_lon (max_corner env)) (p_lat (min_corner env)) (p_lat (max_corner env)) ->
  (exists h, is_code (Z.of_nat (5 * n)) h /\ (east (cell_of (5 * n) h) == p_lon (max_corner env) /\ north (cell_of (5 * n) h) == p_lat (max_corner env))%Q) ->
  gh_encode bmi2 (min_corner env) (Z.of_nat (5 * n)) <> gh_encode bmi2 (max_corner env) (Z.of_nat (5 * n)) ->
  (p_lon (min_corner env) <= lon /\ lon < p_lon (max_corner env) /\ p_lat (min_corner env) <= lat /\ lat < p_lat (max_corner env))%Q ->
  str_encode bmi2 (Point lon lat) (Z.of_nat n) = Ok t -> str_bounding_box bmi2 t = Ok b -> intersects b = true ->
  polygon_boxes bmi2 intersects env (Z.of_nat n) num hw r -> exists codes, r = Ok codes /\ In t codes.
Proof.
  intros bmi2 intersects env n num hw r lon lat t b Hn U Hb Cor Ne Pos Et Eb K R.
  destruct (C120_cover bmi2 intersects env n num hw Hn U Hb) as [_ Cv]. destruct (Cv r R) as (all & codes & Ea & -> & _ & Sp & _). exists codes. split; [reflexivity|].
  apply Sp. split; [|exists b; auto].
  unfold str_bounding_boxes in Ea. replace (Z.of_nat n * 5) with (Z.of_nat (5 * n)) in Ea by lia.
  destruct (bounding_boxes bmi2 env (Z.of_nat (5 * n))) as [l| |] eqn:E; try discriminate. cbn [obind] in Ea. rewrite Nat2Z.id in Ea.
  assert (all = map (fun h => b32_encode h n) l) by congruence. subst all.
  destruct (C32_cover_partial bmi2 env (5 * n) l lon lat ltac:(lia) Hb E Cor Ne Pos) as (h & I & C).
  unfold str_encode in Et. replace (5 * Z.of_nat n) with (Z.of_nat (5 * n)) in Et by lia.
  destruct (gh_encode bmi2 (Point lon lat) (Z.of_nat (5 * n))) as [g| |] eqn:Eg; try discriminate. cbn [obind] in Et. rewrite Nat2Z.id in Et.
  assert (t = b32_encode g n) by congruence. subst t. apply in_map_iff. exists h. split; [|exact I]. f_equal.
  destruct Hb as (B1 & B2 & B3 & B4 & B5 & B6). destruct Pos as (L1 & L2 & L3 & L4).
  assert (He : in_closed earth lon lat) by (unfold in_closed, earth; cbn [west east south north]; repeat split; lra).
  destruct (C28_contains bmi2 (Point lon lat) (5 * n) ltac:(lia) He) as (g' & Eg' & Cg & _ & Un). assert (g' = g) by congruence. subst g'.
  cbn [p_lon p_lat] in Un.
  assert (Ig : in_half_open (cell_of (5 * n) g) lon lat) by (apply Un; [lra|lra|exact Cg|reflexivity]).
  apply Un; [lra|lra| |exact C].
  destruct (C32_content bmi2 env (5 * n) l ltac:(lia) ltac:(repeat split; assumption) ltac:(lra) ltac:(lra) E) as [_ Cont]. apply (Cont Ne). exact I.
Qed.
Print Assumptions C120_complete_partial.

(** In general cells are missed, possibly all of them: no code for any polygon of this envelope. *)
Theorem C120_cover_refuted : forall (intersects : box -> bool) num hw r, usual num hw ->
  polygon_boxes true intersects (Box (Point 1 1) (Point 2 50)) 1 num hw r -> r = Ok [].
Proof.
  intros intersects num hw r U R.
  destruct (C120_cover true intersects (Box (Point 1 1) (Point 2 50)) 1 num hw ltac:(lia) U) as [_ Cv]; [cbn; unfold box_on_earth; repeat split; lra|].
  destruct (Cv r R) as (all & codes & Ea & -> & _ & Sp & _). unfold str_bounding_boxes in Ea. change (1 * 5) with 5 in Ea. cbn [Z.of_nat Pos.of_succ_nat] in Ea.
  change (1 * 5) with 5 in Ea. rewrite C32_cover_refuted in Ea. cbn [obind map] in Ea. assert (all = []) by congruence. subst all.
  destruct codes as [|t codes]; [reflexivity|]. destruct (proj1 (Sp t) (or_introl eq_refl)) as [[] _].
Qed.
Print Assumptions C120_cover_refuted.

(** The cells of the first octant, a geometry west of 45 degrees: two codes out of four, with 3 threads. *)
Example C120_ex : forall r, polygon_boxes true (fun b => Qle_bool (p_lon (max_corner b)) 45) (Box (Point 0 0) (Point 90 90)) 1 3 8 r ->
  exists codes, r = Ok codes /\ In ["s"%char] codes /\ In ["u"%char] codes /\ ~ In ["t"%char] codes /\ ~ In ["e"%char] codes.
Proof.
  intros r R. destruct (C120_cover true (fun b => Qle_bool (p_lon (max_corner b)) 45) (Box (Point 0 0) (Point 90 90)) 1 3 8 ltac:(lia) ltac:(split; lia)) as [_ Cv];
    [cbn; unfold box_on_earth; repeat split; lra|].
  destruct (Cv r R) as (all & codes & Ea & Er & _ & Sp & _). exists codes. split; [exact Er|].
  assert (X : str_bounding_boxes true (Box (Point 0 0) (Point 90 90)) (Z.of_nat 1) = Ok [["s"%char]; ["t"%char]; ["u"%char]; ["v"%char]]) by (vm_compute; reflexivity).
  assert (all = [["s"%char]; ["t"%char]; ["u"%char]; ["v"%char]]) by congruence. subst all. rewrite !Sp. split; [|split; [|split]].
  - split; [left; reflexivity|]. eexists. split; [vm_compute; reflexivity|reflexivity].
  - split; [right; right; left; reflexivity|]. eexists. split; [vm_compute; reflexivity|reflexivity].
  - intros [_ (b & B & K)]. vm_compute in B. injection B as <-. vm_compute in K. discriminate.
  - intros [[H|[H|[H|[H|[]]]]] _]; discriminate.
Qed.
