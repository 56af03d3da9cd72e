(** Akima and polynomial interpolation on lines; objects used several times: lemmas. *)
From Verif Require Import Base BaseProofs InterpModel InterpSpec Interp1dModel Interp1dSpec InterpProofs InterpProofs2 InterpProofs3 InterpProofs4 InterpProofs5.
Open Scope nat_scope.

Lemma chord_line : forall a b xa ya i, increasing xa -> on_line a b xa ya -> S i < length xa -> (chord xa ya i == b)%Q.
Proof. intros a b xa ya i I O Hi. unfold chord. rewrite (O i), (O (S i)) by lia. pose proof (I i Hi). field. lra. Qed.
Lemma akima_line_line : forall per a b xa ya k, data 5 xa ya -> on_line a b xa ya -> (akima_line per xa ya k == b)%Q.
Proof.
  intros per a b xa ya k (L & N & I) O. unfold akima_line. pose proof (chord_line a b xa ya) as C.
  destruct (k =? 0); [destruct per; rewrite !C by (auto; lia); ring|]. destruct (k =? 1); [destruct per; rewrite !C by (auto; lia); ring|].
  destruct (Nat.leb_spec k (length xa)) as [H|H]; [rewrite C by (auto; lia); ring|].
  destruct (k =? length xa + 1); destruct per; rewrite !C by (auto; lia); ring.
Qed.
Lemma akima_slope_line : forall per a b xa ya k, data 5 xa ya -> on_line a b xa ya -> (akima_node_slope per xa ya k == b)%Q.
Proof.
  intros per a b xa ya k D O. unfold akima_node_slope. cbv zeta. pose proof (fun j => akima_line_line per a b xa ya j D O) as M.
  destruct (k =? 0); [apply M|]. destruct (k =? 1); [rewrite !M; ring|]. destruct (k =? _); [rewrite !M; ring|]. destruct (k =? _); [apply M|].
  destruct (Qeq_dec _ 0) as [E|E]; [rewrite !M; ring|]. exfalso. apply E. rewrite !M. setoid_replace (b - b)%Q with 0%Q by ring. reflexivity.
Qed.

(** ** Polynomial *)
Fixpoint horner (W : nat -> Q) (xa : list Q) (x : Q) (k : nat) : Q :=
  match k with
  | O => W (length xa - 1)
  | S k' => (W (length xa - 2 - k')%nat + (x - at_ xa (length xa - 2 - k')) * horner W xa x k')%Q
  end.
Lemma poly_eval : forall w xa ya x W i, 2 <= length xa -> increasing xa -> (forall j, j < length xa -> bread w j = Ok (W j)) -> in_cell xa x i ->
  poly_interp w xa ya x = Ok (Some (horner W xa x (length xa - 1))).
Proof.
  intros w xa ya x W i N I R C. unfold poly_interp. rewrite (search_cell xa x i I C). cbn [obind]. rewrite R by lia. cbn [obind].
  destruct (odown_inv Q (fun j y => y = horner W xa x (length xa - 1 - j)) (fun ix y => olet wi := bread w ix in olet xi := oat xa ix in Ok (wi + (x - xi) * y)%Q) (length xa - 1) (W (length xa - 1))) as (y & E & Hy).
  - rewrite Nat.sub_diag. reflexivity.
  - intros j y Hj ->. rewrite R, oat_ok by lia. cbn [obind]. eexists. split; [reflexivity|]. replace (length xa - 1 - j) with (S (length xa - 2 - j)) by lia. cbn [horner].
    replace (length xa - 2 - (length xa - 2 - j)) with j by lia. replace (length xa - 1 - S j) with (length xa - 2 - j) by lia. reflexivity.
  - rewrite E. cbn [obind]. rewrite Hy. rewrite Nat.sub_0_r. reflexivity.
Qed.
Lemma horner_two : forall W xa x, 2 <= length xa ->
  horner W xa x (length xa - 1) = (W 0%nat + (x - at_ xa 0) * horner W xa x (length xa - 2))%Q.
Proof.
  intros W xa x N. replace (length xa - 1) with (S (length xa - 2)) by lia. cbn [horner]. rewrite Nat.sub_diag. reflexivity.
Qed.
Lemma horner_three : forall W xa x, 3 <= length xa ->
  horner W xa x (length xa - 2) = (W 1%nat + (x - at_ xa 1) * horner W xa x (length xa - 3))%Q.
Proof.
  intros W xa x N. replace (length xa - 2) with (S (length xa - 3)) by lia. cbn [horner]. replace (length xa - 2 - (length xa - 3)) with 1 by lia. reflexivity.
Qed.
Lemma horner_zero : forall W xa x k, 3 <= length xa -> (forall j, 2 <= j < length xa -> (W j == 0)%Q) -> k <= length xa - 3 -> (horner W xa x k == 0)%Q.
Proof.
  intros W xa x k N H. induction k as [|k IH]; intro Hk; cbn [horner]; [apply H; lia|]. rewrite IH by lia. rewrite H by lia. ring.
Qed.
(** Values left by the computation. *)
Lemma poly_values : forall pk st xa ya, cuts pk -> data 3 xa ya ->
  exists w W, poly_compute pk st xa ya = Ok w /\ (forall j, j < length xa -> bread w j = Ok (W j)) /\ W 0 = at_ ya 0 /\ W 1 = chord xa ya 0.
Proof.
  intros pk st xa ya P D. destruct (poly_compute_ok pk st xa ya P D) as (w & E & E0 & E1 & R).
  exists w, (fun j => match bread w j with Ok v => v | _ => 0%Q end). split; [exact E|]. rewrite E0, E1. split; [|auto].
  intros j Hj. destruct (R j Hj) as (v & ->). reflexivity.
Qed.
(** One packet: differences of the old cells. *)
Lemma one_packet : forall xa k w n, increasing xa -> 1 <= k -> k + n <= length xa -> length xa <= bsize w -> forall W, (forall j, j < length xa -> bread w j = Ok (W j)) ->
  exists w', ofor k n (poly_packet xa w) w = Ok w' /\ bsize w' = bsize w /\
    forall j, j < length xa -> bread w' j = Ok (if (k <=? j) && (j <? k + n) then ((W j - W (j - 1)%nat) / (at_ xa j - at_ xa (j - 1)))%Q else W j).
Proof.
  intros xa k w n I Hk Hn Hs W R.
  destruct (ofor_inv buf (fun i w' => bsize w' = bsize w /\ forall j, j < length xa -> bread w' j = Ok (if (k <=? j) && (j <? i) then ((W j - W (j - 1)%nat) / (at_ xa j - at_ xa (j - 1)))%Q else W j)) (poly_packet xa w) n k w) as (w' & E & Hz & H).
  - split; [reflexivity|]. intros j Hj. rewrite R by exact Hj. destruct (Nat.leb_spec k j), (Nat.ltb_spec j k); try lia; reflexivity.
  - intros i w1 Hi (Z1 & R1). unfold poly_packet. rewrite !R by lia. cbn [obind]. rewrite !oat_ok by lia. cbn [obind].
    pose proof (increasing_lt xa (i - 1) i I ltac:(lia) ltac:(lia)). rewrite odiv_ok by lra. cbn [obind].
    match goal with |- context [bwrite w1 ?j ?v] => destruct (bwrite_ok w1 j v ltac:(lia)) as (w2 & E2 & Z2 & R2 & O2) end.
    exists w2. split; [exact E2|]. split; [lia|]. intros j Hj. destruct (Nat.eq_dec j i) as [->|Nj].
    + rewrite R2. destruct (Nat.leb_spec k i), (Nat.ltb_spec i (S i)); try lia. reflexivity.
    + rewrite O2, R1 by assumption. destruct (Nat.leb_spec k j), (Nat.ltb_spec j i), (Nat.ltb_spec j (S i)); try lia; reflexivity.
  - exists w'. auto.
Qed.
Lemma poly_lines : forall pk st a b xa ya, (forall ix n, pk ix n = [n]) -> data 3 xa ya -> on_line a b xa ya ->
  exists w W, poly_compute pk st xa ya = Ok w /\ (forall j, j < length xa -> bread w j = Ok (W j)) /\ W 0 = at_ ya 0 /\ (W 1%nat == b)%Q /\ forall j, 2 <= j < length xa -> (W j == 0)%Q.
Proof.
  intros pk st a b xa ya P D O. pose proof D as (L & N & I). unfold poly_compute, polynomial_min_size. rewrite (check_ok 3 xa ya D). cbn [obind].
  set (w0 := if bsize st <? length xa then _ else st). assert (Z0 : length xa <= bsize w0). { unfold w0. destruct (Nat.ltb_spec (bsize st) (length xa)); cbn; lia. } clearbody w0.
  rewrite oat_ok by lia. cbn [obind]. destruct (bwrite_ok w0 0 (at_ ya 0) ltac:(lia)) as (w1 & E1 & Z1 & R1 & _). rewrite E1. cbn [obind]. clear E1.
  destruct (ofor_inv buf (fun i w => length xa <= bsize w /\ bread w 0 = Ok (at_ ya 0) /\ forall j, 1 <= j < i -> bread w j = Ok (chord xa ya (j - 1))) (poly_first xa ya) (length xa - 1) 1 w1) as (w2 & E2 & Z2 & R20 & R2).
  { split; [lia|]. split; [exact R1|]. intros j Hj. lia. }
  { intros i w Hi (Zw & Rw0 & Rw). unfold poly_first. rewrite !oat_ok by lia. cbn [obind]. pose proof (increasing_lt xa (i - 1) i I ltac:(lia) ltac:(lia)). rewrite odiv_ok by lra. cbn [obind].
    match goal with |- context [bwrite w ?j ?v] => destruct (bwrite_ok w j v ltac:(lia)) as (w3 & E3 & Z3 & R3 & O3) end.
    exists w3. split; [exact E3|]. split; [lia|]. split; [rewrite O3 by lia; exact Rw0|]. intros j Hj. destruct (Nat.eq_dec j i) as [->|Nj]; [rewrite R3; unfold chord; replace (S (i - 1)) with i by lia; reflexivity|]. rewrite O3 by exact Nj. apply Rw. lia. }
  rewrite E2. cbn [obind]. clear E2. replace (1 + (length xa - 1)) with (length xa) in R2 by lia.
  destruct (ofor_inv buf (fun i w => length xa <= bsize w /\ exists W, (forall j, j < length xa -> bread w j = Ok (W j)) /\ W 0 = at_ ya 0 /\ (W 1%nat == b)%Q /\
     ((i = 2 /\ forall j, 2 <= j < length xa -> (W j == b)%Q) \/ (2 < i /\ forall j, 2 <= j < length xa -> (W j == 0)%Q)))
     (fun ix w => poly_segment xa (pk ix (length xa - ix)) ix w) (length xa - 2) 2 w2) as (w & E & Zw & W & R & W0 & W1 & H).
  { split; [exact Z2|]. exists (fun j => if j =? 0 then at_ ya 0 else chord xa ya (j - 1)). split.
    - intros j Hj. destruct (Nat.eqb_spec j 0) as [->|Nj]; [exact R20|apply R2; lia].
    - cbn [Nat.eqb]. split; [reflexivity|]. split; [apply (chord_line a b); auto; lia|]. left. split; [reflexivity|]. intros j Hj. destruct (Nat.eqb_spec j 0); [lia|]. apply (chord_line a b); auto. lia. }
  { intros i w Hi (Zw & W & R & W0 & W1 & H). rewrite P. cbn [poly_segment].
    destruct (one_packet xa i w (length xa - i) I ltac:(lia) ltac:(lia) Zw W R) as (w' & E & Zw' & R'). rewrite E. cbn [obind]. exists w'. split; [reflexivity|].
    split; [lia|]. exists (fun j => if (i <=? j) && (j <? i + (length xa - i)) then ((W j - W (j - 1)%nat) / (at_ xa j - at_ xa (j - 1)))%Q else W j). split; [exact R'|].
    destruct (Nat.leb_spec i 0); [lia|]. destruct (Nat.leb_spec i 1); [lia|]. cbn [andb]. split; [exact W0|]. split; [exact W1|]. right. split; [lia|].
    intros j Hj. destruct (Nat.leb_spec i j) as [Hij|Hij]; cbn [andb].
    - destruct (Nat.ltb_spec j (i + (length xa - i))); [|lia]. pose proof (increasing_lt xa (j - 1) j I ltac:(lia) ltac:(lia)).
      assert (Ew : (W j == W (j - 1)%nat)%Q).
      { destruct H as [(-> & H)|(I2 & H)]; [|rewrite !H by lia; reflexivity]. rewrite H by lia. destruct (Nat.eq_dec j 2) as [->|J]; [rewrite W1; reflexivity|rewrite H by lia; reflexivity]. }
      rewrite Ew. field. lra.
    - destruct H as [(-> & H)|(I2 & H)]; [lia|]. apply H. lia. }
  rewrite E. exists w, W. split; [reflexivity|]. split; [exact R|]. split; [exact W0|]. split; [exact W1|]. destruct H as [(H & _)|(_ & H)]; [lia|exact H].
Qed.

(** ** Two runs of the polynomial computation *)
Definition agree (n : nat) (w1 w2 : buf) : Prop := n <= bsize w1 /\ n <= bsize w2 /\ forall j, j < n -> bread w1 j = bread w2 j.
Definition orel {A B : Type} (R : A -> B -> Prop) (m1 : outcome A) (m2 : outcome B) : Prop :=
  match m1, m2 with Ok a, Ok b => R a b | Throw a, Throw b => a = b | UB a, UB b => a = b | _, _ => False end.
Lemma orel_bind : forall (A B A' B' : Type) (R : A -> B -> Prop) (R' : A' -> B' -> Prop) m1 m2 f1 f2, orel R m1 m2 -> (forall a b, R a b -> orel R' (f1 a) (f2 b)) -> orel R' (obind m1 f1) (obind m2 f2).
Proof. intros A B A' B' R R' [a|a|a] [b|b|b] f1 f2 H Hf; cbn in *; try tauto; auto. Qed.
Lemma orel_refl : forall (A : Type) (m : outcome A), orel eq m m.
Proof. intros A [a|a|a]; cbn; auto. Qed.
Lemma orel_for : forall (S S' : Type) (R : S -> S' -> Prop) f f' n from s s', R s s' ->
  (forall i s s', from <= i < from + n -> R s s' -> orel R (f i s) (f' i s')) -> orel R (ofor from n f s) (ofor from n f' s').
Proof.
  intros S S' R f f'. induction n as [|n IH]; intros from s s' H Hf; cbn [ofor]; [exact H|].
  eapply orel_bind; [apply Hf; [lia|exact H]|]. intros a b Hab. apply IH; [exact Hab|]. intros i t t' Hi. apply Hf. lia.
Qed.
Lemma orel_write : forall n w1 w2 i v, agree n w1 w2 -> i < n -> orel (agree n) (bwrite w1 i v) (bwrite w2 i v).
Proof.
  intros n w1 w2 i v (Z1 & Z2 & R) Hi. destruct (bwrite_ok w1 i v ltac:(lia)) as (u1 & -> & Y1 & S1 & O1). destruct (bwrite_ok w2 i v ltac:(lia)) as (u2 & -> & Y2 & S2 & O2).
  cbn. split; [lia|]. split; [lia|]. intros j Hj. destruct (Nat.eq_dec j i) as [->|Nj]; [congruence|]. rewrite O1, O2 by exact Nj. apply R. exact Hj.
Qed.
Lemma orel_segment : forall xa plan k w1 w2, k + list_sum plan <= length xa -> 1 <= k -> agree (length xa) w1 w2 ->
  orel (agree (length xa)) (poly_segment xa plan k w1) (poly_segment xa plan k w2).
Proof.
  intros xa. induction plan as [|len t IH]; intros k w1 w2 Hk H1 A; cbn [poly_segment]; [exact A|]. cbn in Hk. fold (list_sum t) in Hk.
  eapply orel_bind; [|intros a b Hab; apply IH; [lia|lia|exact Hab]].
  apply orel_for; [exact A|]. intros i s s' Hi As. unfold poly_packet. destruct A as (_ & _ & A).
  rewrite (A i) by lia. rewrite (A (i - 1)) by lia.
  do 5 (eapply orel_bind; [apply orel_refl|intros ? ? <-]). apply orel_write; [exact As|lia].
Qed.
Lemma poly_two_runs : forall pk xa ya w1 w2, cuts pk -> data 3 xa ya -> orel (agree (length xa)) (poly_compute pk w1 xa ya) (poly_compute pk w2 xa ya).
Proof.
  intros pk xa ya w1 w2 P D. pose proof D as (L & N & I). unfold poly_compute, polynomial_min_size. rewrite (check_ok 3 xa ya D). cbn [obind].
  set (u1 := if bsize w1 <? length xa then _ else w1). set (u2 := if bsize w2 <? length xa then _ else w2).
  assert (Z1 : length xa <= bsize u1). { unfold u1. destruct (Nat.ltb_spec (bsize w1) (length xa)); cbn; lia. }
  assert (Z2 : length xa <= bsize u2). { unfold u2. destruct (Nat.ltb_spec (bsize w2) (length xa)); cbn; lia. } clearbody u1 u2.
  rewrite oat_ok by lia. cbn [obind].
  destruct (bwrite_ok u1 0 (at_ ya 0) ltac:(lia)) as (v1 & -> & Y1 & S1 & O1). destruct (bwrite_ok u2 0 (at_ ya 0) ltac:(lia)) as (v2 & -> & Y2 & S2 & O2). cbn [obind].
  pose (R := fun i (a b : buf) => length xa <= bsize a /\ length xa <= bsize b /\ forall j, j < i -> bread a j = bread b j).
  assert (H : exists a b, ofor 1 (length xa - 1) (poly_first xa ya) v1 = Ok a /\ ofor 1 (length xa - 1) (poly_first xa ya) v2 = Ok b /\ agree (length xa) a b).
  { assert (G : forall n from a b, 1 <= from -> from + n <= length xa -> R from a b -> exists a' b', ofor from n (poly_first xa ya) a = Ok a' /\ ofor from n (poly_first xa ya) b = Ok b' /\ R (from + n) a' b').
    { induction n as [|n IH]; intros from a b H1 H2 (Ra & Rb & Rr); cbn [ofor]; [exists a, b; rewrite Nat.add_0_r; repeat split; auto|].
      unfold poly_first at 1 3. rewrite !oat_ok by lia. cbn [obind]. pose proof (increasing_lt xa (from - 1) from I ltac:(lia) ltac:(lia)). rewrite odiv_ok by lra. cbn [obind].
      match goal with |- context [bwrite a ?j ?v] => destruct (bwrite_ok a j v ltac:(lia)) as (a' & -> & Ya & Sa & Oa); destruct (bwrite_ok b j v ltac:(lia)) as (b' & -> & Yb & Sb & Ob) end. cbn [obind].
      destruct (IH (S from) a' b') as (a2 & b2 & E1 & E2 & E3); try lia.
      - split; [lia|]. split; [lia|]. intros j Hj. destruct (Nat.eq_dec j from) as [->|Nj]; [congruence|]. rewrite Oa, Ob by exact Nj. apply Rr. lia.
      - exists a2, b2. split; [exact E1|]. split; [exact E2|]. replace (from + S n) with (S from + n) by lia. exact E3. }
    destruct (G (length xa - 1) 1 v1 v2) as (a & b & E1 & E2 & Ra & Rb & Rr); try lia.
    - split; [lia|]. split; [lia|]. intros j Hj. assert (j = 0) by lia. subst j. congruence.
    - exists a, b. split; [exact E1|]. split; [exact E2|]. split; [exact Ra|]. split; [exact Rb|]. intros j Hj. apply Rr. lia. }
  destruct H as (a & b & -> & -> & A). cbn [obind]. apply orel_for; [exact A|]. intros i s s' Hi As. apply orel_segment; [rewrite P; lia|lia|exact As].
Qed.
