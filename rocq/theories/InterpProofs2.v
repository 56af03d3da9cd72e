(** Akima and polynomial interpolation: lemmas. *)
From Verif Require Import Base BaseProofs InterpModel InterpSpec InterpProofs.
Open Scope nat_scope.

(** ** Akima *)
(** Sizes of the buffers that a history of calls can produce. *)
Definition akima_inv (st : akima_state) : Prop := bsize (am st) <= bsize (as_ st) + 4.
Ltac step_write E :=
  match goal with |- context [bwrite ?b ?j ?v] => destruct (bwrite_ok b j v ltac:(cbn [bsize] in *; lia)) as (? & E & ? & ? & ?); rewrite E; cbn [obind] end.

Lemma akima_compute_ok : forall per st xa ya, akima_inv st -> data 5 xa ya ->
  exists st', akima_compute per st xa ya = Ok st' /\ akima_inv st' /\
    (forall k, k < length xa + 3 -> bread (am st') k = Ok (akima_line per xa ya k)) /\
    (forall i, i < length xa -> bread (as_ st') i = Ok (akima_node_slope per xa ya i)).
Proof.
  intros per st xa ya Inv D. pose proof D as (L & N & I). unfold akima_compute, akima_min_size. rewrite (check_ok _ _ _ D). cbn [obind].
  set (n := length xa) in *.
  set (st0 := if bsize (am st) <? n + 4 then Akima (bresize (n + 4)) (bresize n) else st).
  assert (S0 : n + 4 <= bsize (am st0) /\ n <= bsize (as_ st0) /\ akima_inv st0).
  { unfold st0. destruct (Nat.ltb_spec (bsize (am st)) (n + 4)); cbn; unfold akima_inv in *; cbn; lia. }
  destruct S0 as (Sm & Ss & Inv0). clearbody st0. clear Inv st. destruct st0 as [m s]. cbn [am as_] in *.
  (* slopes *)
  destruct (ofor_inv buf (fun i b => bsize b = bsize m /\ forall k, k < i -> bread b (k + 2) = Ok (chord xa ya k)) (akima_slope xa ya) (n - 1) 0 m) as (m1 & E1 & Z1 & R1).
  { split; [reflexivity|]. intros k Hk. lia. }
  { intros i b Hi [Zb Rb]. unfold akima_slope. rewrite !oat_ok by lia. cbn [obind]. pose proof (I i ltac:(fold n; lia)) as P. replace (i + 1) with (S i) by lia. rewrite odiv_ok by lra. cbn [obind].
    match goal with |- context [bwrite b ?j ?v] => destruct (bwrite_ok b j v ltac:(lia)) as (b' & E & Z & R & O) end. exists b'. split; [exact E|]. split; [lia|].
    intros k Hk. destruct (Nat.eq_dec k i) as [->|Nk]; [exact R|]. rewrite O by lia. apply Rb. lia. }
  rewrite E1. cbn [obind]. cbn [Nat.add] in R1.
  (* boundary *)
  assert (B : exists m2, (if per then akima_boundary_periodic m1 n else akima_boundary m1 n) = Ok m2 /\ bsize m2 = bsize m /\
     forall k, k < n + 3 -> bread m2 k = Ok (akima_line per xa ya k)).
  { assert (Rc : forall k, 2 <= k <= n -> bread m1 k = Ok (chord xa ya (k - 2))).
    { intros k Hk. rewrite <- (R1 (k - 2)) by lia. f_equal. lia. }
    assert (AL : forall k, 2 <= k <= n -> akima_line per xa ya k = chord xa ya (k - 2)).
    { intros k Hk. unfold akima_line. fold n. destruct (Nat.eqb_spec k 0); [lia|]. destruct (Nat.eqb_spec k 1); [lia|]. destruct (Nat.leb_spec k n); [reflexivity|lia]. }
    destruct per.
    - unfold akima_boundary_periodic. rewrite (Rc (n - 1)) by lia. cbn [obind].
      destruct (bwrite_ok m1 0 (chord xa ya (n - 1 - 2)) ltac:(lia)) as (a1 & Ea1 & Za1 & Ra1 & Oa1). rewrite Ea1. cbn [obind].
      rewrite Oa1, (Rc n) by lia. cbn [obind].
      destruct (bwrite_ok a1 1 (chord xa ya (n - 2)) ltac:(lia)) as (a2 & Ea2 & Za2 & Ra2 & Oa2). rewrite Ea2. cbn [obind].
      rewrite Oa2, Oa1, (Rc 2) by lia. cbn [obind].
      destruct (bwrite_ok a2 (n + 1) (chord xa ya (2 - 2)) ltac:(lia)) as (a3 & Ea3 & Za3 & Ra3 & Oa3). rewrite Ea3. cbn [obind].
      rewrite Oa3, Oa2, Oa1, (Rc 3) by lia. cbn [obind].
      destruct (bwrite_ok a3 (n + 2) (chord xa ya (3 - 2)) ltac:(lia)) as (a4 & Ea4 & Za4 & Ra4 & Oa4). exists a4. split; [exact Ea4|]. split; [lia|].
      intros k Hk. assert (Ck : k = 0 \/ k = 1 \/ 2 <= k <= n \/ k = n + 1 \/ k = n + 2) by lia. destruct Ck as [->|[->|[Hk2|[->| ->]]]].
      + rewrite Oa4, Oa3, Oa2, Ra1 by lia. unfold akima_line. fold n. cbn [Nat.eqb]. do 2 f_equal. lia.
      + rewrite Oa4, Oa3, Ra2 by lia. unfold akima_line. fold n. reflexivity.
      + rewrite Oa4, Oa3, Oa2, Oa1, AL by lia. apply Rc. lia.
      + rewrite Oa4, Ra3 by lia. unfold akima_line. fold n. destruct (Nat.eqb_spec (n + 1) 0); [lia|]. destruct (Nat.eqb_spec (n + 1) 1); [lia|]. destruct (Nat.leb_spec (n + 1) n); [lia|]. rewrite Nat.eqb_refl. reflexivity.
      + rewrite Ra4. unfold akima_line. fold n. destruct (Nat.eqb_spec (n + 2) 0); [lia|]. destruct (Nat.eqb_spec (n + 2) 1); [lia|]. destruct (Nat.leb_spec (n + 2) n); [lia|]. destruct (Nat.eqb_spec (n + 2) (n + 1)); [lia|]. reflexivity.
    - unfold akima_boundary. rewrite (Rc 2), (Rc 3) by lia. cbn [obind].
      set (u0 := (3 * chord xa ya (2 - 2) - 2 * chord xa ya (3 - 2))%Q). set (u1 := (2 * chord xa ya (2 - 2) - chord xa ya (3 - 2))%Q).
      destruct (bwrite_ok m1 0 u0 ltac:(lia)) as (a1 & Ea1 & Za1 & Ra1 & Oa1). rewrite Ea1. cbn [obind].
      destruct (bwrite_ok a1 1 u1 ltac:(lia)) as (a2 & Ea2 & Za2 & Ra2 & Oa2). rewrite Ea2. cbn [obind].
      rewrite !Oa2, !Oa1, (Rc n), (Rc (n - 1)) by lia. cbn [obind].
      set (u2 := (2 * chord xa ya (n - 2) - chord xa ya (n - 1 - 2))%Q). set (u3 := (3 * chord xa ya (n - 2) - 2 * chord xa ya (n - 1 - 2))%Q).
      destruct (bwrite_ok a2 (n + 1) u2 ltac:(lia)) as (a3 & Ea3 & Za3 & Ra3 & Oa3). rewrite Ea3. cbn [obind].
      destruct (bwrite_ok a3 (n + 2) u3 ltac:(lia)) as (a4 & Ea4 & Za4 & Ra4 & Oa4). exists a4. split; [exact Ea4|]. split; [lia|].
      intros k Hk. assert (Ck : k = 0 \/ k = 1 \/ 2 <= k <= n \/ k = n + 1 \/ k = n + 2) by lia. destruct Ck as [->|[->|[Hk2|[->| ->]]]].
      + rewrite Oa4, Oa3, Oa2, Ra1 by lia. reflexivity.
      + rewrite Oa4, Oa3, Ra2 by lia. reflexivity.
      + rewrite Oa4, Oa3, Oa2, Oa1, AL by lia. apply Rc. lia.
      + rewrite Oa4, Ra3 by lia. unfold akima_line. fold n. destruct (Nat.eqb_spec (n + 1) 0); [lia|]. destruct (Nat.eqb_spec (n + 1) 1); [lia|]. destruct (Nat.leb_spec (n + 1) n); [lia|]. rewrite Nat.eqb_refl. unfold u2. replace (n - 1 - 2) with (n - 3) by lia. reflexivity.
      + rewrite Ra4. unfold akima_line. fold n. destruct (Nat.eqb_spec (n + 2) 0); [lia|]. destruct (Nat.eqb_spec (n + 2) 1); [lia|]. destruct (Nat.leb_spec (n + 2) n); [lia|]. destruct (Nat.eqb_spec (n + 2) (n + 1)); [lia|]. unfold u3. replace (n - 1 - 2) with (n - 3) by lia. reflexivity. }
  destruct B as (m2 & EB & ZB & RB). rewrite EB. cbn [obind]. clear EB.
  (* node slopes *)
  destruct (ofor_inv buf (fun i b => bsize b = bsize s /\ forall k, 2 <= k < i -> bread b k = Ok (akima_node_slope per xa ya k)) (akima_spline m2) (n - 4) 2 s) as (s1 & Es1 & Zs1 & Rs1).
  { split; [reflexivity|]. intros k Hk. lia. }
  { intros i b Hi [Zb Rb]. unfold akima_spline. rewrite !RB by lia. cbn [obind].
    set (v := akima_node_slope per xa ya i).
    assert (Ev : (if negb (Qeq_bool (Qabs (akima_line per xa ya (i + 3) - akima_line per xa ya (i + 2)) + Qabs (akima_line per xa ya (i + 1) - akima_line per xa ya i)) 0)
                  then olet v := odiv (Qabs (akima_line per xa ya (i + 3) - akima_line per xa ya (i + 2)) * akima_line per xa ya (i + 1) + Qabs (akima_line per xa ya (i + 1) - akima_line per xa ya i) * akima_line per xa ya (i + 2))
                                     (Qabs (akima_line per xa ya (i + 3) - akima_line per xa ya (i + 2)) + Qabs (akima_line per xa ya (i + 1) - akima_line per xa ya i)) in bwrite b i v
                  else bwrite b i ((akima_line per xa ya (i + 1) + akima_line per xa ya (i + 2)) * (1 # 2))) = bwrite b i v).
    { unfold v, akima_node_slope. fold n. destruct (Nat.eqb_spec i 0); [lia|]. destruct (Nat.eqb_spec i 1); [lia|]. destruct (Nat.eqb_spec i (n - 2)); [lia|]. destruct (Nat.eqb_spec i (n - 1)); [lia|].
      cbv zeta. match goal with |- context [Qeq_dec ?d 0] => destruct (Qeq_dec d 0) as [Q0|Q0] end.
      - pose proof Q0 as Q1. apply Qeq_bool_iff in Q1. rewrite Q1. reflexivity.
      - match goal with |- context [Qeq_bool ?d 0] => destruct (Qeq_bool d 0) eqn:Q1 end; [apply Qeq_bool_eq in Q1; contradiction|]. cbn [negb]. rewrite odiv_ok by exact Q0. reflexivity. }
    rewrite Ev. destruct (bwrite_ok b i v ltac:(lia)) as (b' & E & Z & R & O). exists b'. split; [exact E|]. split; [lia|].
    intros k Hk. destruct (Nat.eq_dec k i) as [->|Nk]; [exact R|]. rewrite O by exact Nk. apply Rb. lia. }
  rewrite Es1. cbn [obind]. replace (2 + (n - 4)) with (n - 2) in Rs1 by lia. rewrite !RB by lia. cbn [obind].
  destruct (bwrite_ok s1 0 (akima_line per xa ya 2) ltac:(lia)) as (s2 & Es2 & Zs2 & Rs2 & Os2). rewrite Es2. cbn [obind].
  match goal with |- context [bwrite s2 ?j ?v] => destruct (bwrite_ok s2 j v ltac:(lia)) as (s3 & Es3 & Zs3 & Rs3 & Os3) end. rewrite Es3. cbn [obind].
  match goal with |- context [bwrite s3 ?j ?v] => destruct (bwrite_ok s3 j v ltac:(lia)) as (s4 & Es4 & Zs4 & Rs4 & Os4) end. rewrite Es4. cbn [obind].
  match goal with |- context [bwrite s4 ?j ?v] => destruct (bwrite_ok s4 j v ltac:(lia)) as (s5 & Es5 & Zs5 & Rs5 & Os5) end. rewrite Es5. cbn [obind].
  eexists. split; [reflexivity|]. split; [unfold akima_inv in *; cbn in *; lia|]. cbn [am as_]. split; [exact RB|].
  intros i Hi. assert (Ci : i = 0 \/ i = 1 \/ 2 <= i < n - 2 \/ i = n - 2 \/ i = n - 1) by lia.
  assert (E0 : forall a b, a <> b -> (a =? b) = false) by (intros; apply Nat.eqb_neq; assumption).
  destruct Ci as [->|[->|[Hi2|[->| ->]]]].
  - rewrite Os5, Os4, Os3, Rs2 by lia. reflexivity.
  - rewrite Os5, Os4, Rs3 by lia. reflexivity.
  - rewrite Os5, Os4, Os3, Os2 by lia. apply Rs1. lia.
  - rewrite Os5, Rs4 by lia. unfold akima_node_slope. fold n. rewrite !E0, Nat.eqb_refl by lia. reflexivity.
  - rewrite Rs5. unfold akima_node_slope. fold n. rewrite !E0, Nat.eqb_refl by lia. reflexivity.
Qed.
(** The polynomial the code evaluates on cell [i]: the slope used is that of line [i - 2]. *)
Lemma akima_result : forall per st xa ya x i, akima_inv st -> data 5 xa ya -> in_cell xa x i ->
  exists st' v v', akima per st xa ya x = Ok (st', Some v) /\ akima_derivative per st xa ya x = Ok (st', Some v') /\ akima_inv st' /\
    (v == hermite (at_ xa i) (at_ xa (S i)) (at_ ya i) (at_ ya i + (at_ xa (S i) - at_ xa i) * akima_line per xa ya i)
            (akima_node_slope per xa ya i) (akima_node_slope per xa ya (S i)) x)%Q /\
    (v' == hermite' (at_ xa i) (at_ xa (S i)) (at_ ya i) (at_ ya i + (at_ xa (S i) - at_ xa i) * akima_line per xa ya i)
            (akima_node_slope per xa ya i) (akima_node_slope per xa ya (S i)) x)%Q.
Proof.
  intros per st xa ya x i Inv D C. destruct (akima_compute_ok per st xa ya Inv D) as (st' & E & Inv' & Rm & Rs). unfold akima, akima_derivative. rewrite E. cbn [obind].
  destruct D as (L & N & I). unfold akima_interp, akima_deriv. rewrite (search_cell xa x i I C). cbn [obind].
  destruct (cell_step xa x i I C) as [_ P]. pose proof (proj1 C) as Hn. unfold akima_cell. rewrite !oat_ok by lia. cbn [obind].
  rewrite !Rs, !Rm by lia. cbn [obind]. rewrite !odiv_ok by nra. cbn [obind].
  do 3 eexists. split; [reflexivity|]. split; [reflexivity|]. split; [exact Inv'|]. unfold hermite, hermite'. split; field; lra.
Qed.

(** ** Polynomial *)
Definition cuts (packets : nat -> nat -> list nat) : Prop := forall ix n, list_sum (packets ix n) = n.
Lemma poly_segment_ok : forall xa plan k w, increasing xa -> 1 <= k -> k + list_sum plan = length xa -> length xa <= bsize w ->
  (forall j, j < length xa -> exists v, bread w j = Ok v) ->
  exists w', poly_segment xa plan k w = Ok w' /\ bsize w' = bsize w /\ (forall j, j < k -> bread w' j = bread w j) /\
    (forall j, j < length xa -> exists v, bread w' j = Ok v).
Proof.
  intros xa plan. induction plan as [|len t IH]; intros k w I Hk Hs Hb Hr; cbn [poly_segment list_sum fold_right] in *.
  - exists w. auto.
  - cbn in Hs. destruct (ofor_inv buf (fun i b => bsize b = bsize w /\ (forall j, j < k -> bread b j = bread w j) /\ (forall j, j < length xa -> exists v, bread b j = Ok v)) (poly_packet xa w) len k w) as (w1 & E1 & Z1 & O1 & R1).
    { auto. }
    { intros i b Hi (Zb & Ob & Rb). unfold poly_packet. destruct (Hr i ltac:(lia)) as (v1 & ->). destruct (Hr (i - 1) ltac:(lia)) as (v0 & ->). cbn [obind].
      rewrite !oat_ok by lia. cbn [obind]. pose proof (I (i - 1) ltac:(lia)) as P. replace (S (i - 1)) with i in P by lia. rewrite odiv_ok by lra. cbn [obind].
      match goal with |- context [bwrite b ?j ?v] => destruct (bwrite_ok b j v ltac:(lia)) as (b' & E & Z & R & O) end.
      exists b'. split; [exact E|]. split; [lia|]. split; [intros j Hj; rewrite O by lia; apply Ob; lia|].
      intros j Hj. destruct (Nat.eq_dec j i) as [->|Nj]; [eauto|]. rewrite O by exact Nj. auto. }
    rewrite E1. cbn [obind]. destruct (IH (k + len) w1 I) as (w2 & E2 & Z2 & O2 & R2); auto; [lia|unfold list_sum in *; lia|lia|].
    exists w2. split; [exact E2|]. split; [lia|]. split; [|exact R2]. intros j Hj. rewrite O2 by lia. apply O1. exact Hj.
Qed.
(** The first two coefficients are always the right ones. *)
Lemma poly_compute_ok : forall packets st xa ya, cuts packets -> data 3 xa ya ->
  exists w, poly_compute packets st xa ya = Ok w /\ bread w 0 = Ok (at_ ya 0) /\ bread w 1 = Ok (chord xa ya 0) /\
    (forall j, j < length xa -> exists v, bread w j = Ok v).
Proof.
  intros packets st xa ya Cu D. pose proof D as (L & N & I). unfold poly_compute, polynomial_min_size. rewrite (check_ok _ _ _ D). cbn [obind].
  set (w0 := if bsize st <? length xa then bresize (length xa) else st).
  assert (S0 : length xa <= bsize w0). { unfold w0. destruct (Nat.ltb_spec (bsize st) (length xa)); [cbn; lia|lia]. } clearbody w0.
  rewrite oat_ok by lia. cbn [obind]. destruct (bwrite_ok w0 0 (at_ ya 0) ltac:(lia)) as (w1 & E1 & Z1 & R1 & _). rewrite E1. cbn [obind].
  destruct (ofor_inv buf (fun i b => bsize b = bsize w0 /\ bread b 0 = Ok (at_ ya 0) /\ forall k, 1 <= k < i -> bread b k = Ok (chord xa ya (k - 1))) (poly_first xa ya) (length xa - 1) 1 w1) as (w2 & E2 & Z2 & R20 & R2).
  { split; [exact Z1|]. split; [exact R1|]. intros k Hk. lia. }
  { intros i b Hi (Zb & Rb0 & Rb). unfold poly_first. rewrite !oat_ok by lia. cbn [obind]. pose proof (I (i - 1) ltac:(lia)) as P. replace (S (i - 1)) with i in P by lia. rewrite odiv_ok by lra. cbn [obind].
    match goal with |- context [bwrite b ?j ?v] => destruct (bwrite_ok b j v ltac:(lia)) as (b' & E & Z & R & O) end.
    exists b'. split; [exact E|]. split; [lia|]. split; [rewrite O by lia; exact Rb0|]. intros k Hk. destruct (Nat.eq_dec k i) as [->|Nk].
    - rewrite R. unfold chord. replace (S (i - 1)) with i by lia. reflexivity.
    - rewrite O by exact Nk. apply Rb. lia. }
  rewrite E2. cbn [obind]. replace (1 + (length xa - 1)) with (length xa) in R2 by lia.
  destruct (ofor_inv buf (fun i b => bsize b = bsize w0 /\ (forall j, j < 2 -> bread b j = bread w2 j) /\ (forall j, j < length xa -> exists v, bread b j = Ok v))
     (fun ix w => poly_segment xa (packets ix (length xa - ix)) ix w) (length xa - 2) 2 w2) as (w3 & E3 & Z3 & O3 & R3).
  { split; [exact Z2|]. split; [reflexivity|]. intros j Hj. destruct j as [|j]; [eauto|]. exists (chord xa ya j). rewrite (R2 (S j)) by lia. do 2 f_equal. lia. }
  { intros i b Hi (Zb & Ob & Rb). destruct (poly_segment_ok xa (packets i (length xa - i)) i b I ltac:(lia)) as (b' & E & Z & O & R).
    - rewrite Cu. lia.
    - lia.
    - exact Rb.
    - exists b'. split; [exact E|]. split; [lia|]. split; [|exact R]. intros j Hj. rewrite O by lia. apply Ob. exact Hj. }
  exists w3. split; [exact E3|]. rewrite !O3 by lia. split; [exact R20|]. split; [|exact R3]. rewrite (R2 1) by lia. reflexivity.
Qed.
