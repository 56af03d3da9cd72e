(** Lemmas about the serialization of histograms. *)
From Verif Require Import Base BaseProofs HistSerModel.
From Coq Require Import ZifyBool.
Open Scope Z_scope.

Lemma le_length : forall n z, length (le_bytes n z) = n.
Proof. induction n as [|n IH]; intro z; cbn; [reflexivity|]. rewrite IH. reflexivity. Qed.
Lemma le_zlen : forall n z, zlen (le_bytes n z) = Z.of_nat n.
Proof. intros. unfold zlen. rewrite le_length. reflexivity. Qed.
Lemma le_round : forall n z, 0 <= z < 256 ^ Z.of_nat n -> le_value (le_bytes n z) = z.
Proof.
  induction n as [|n IH]; intros z H; [cbn in *; lia|]. cbn [le_bytes le_value].
  rewrite Nat2Z.inj_succ, Z.pow_succ_r in H by lia. rewrite IH; [Z.div_mod_to_equations; lia|]. Z.div_mod_to_equations; lia.
Qed.
Lemma le_round8 : forall z, 0 <= z < 2 ^ 64 -> le_value (le_bytes 8 z) = z.
Proof. intros z H. apply le_round. change (256 ^ Z.of_nat 8) with (2 ^ 64). exact H. Qed.

(** A writer's data and a reader that follows it, possibly truncated. *)
Lemma get_prefix : forall k x y n, zlen x = k ->
  get k (firstn n (x ++ y)) = if (Z.of_nat n <? k) && (Z.of_nat n <? zlen (x ++ y)) then Throw "invalid state"
                              else if zlen (firstn n (x ++ y)) <? k then Throw "invalid state" else Ok (x, firstn (n - length x) y).
Proof.
  intros k x y n H. unfold get. destruct (zlen (firstn n (x ++ y)) <? k) eqn:E.
  - destruct ((Z.of_nat n <? k) && (Z.of_nat n <? zlen (x ++ y))); reflexivity.
  - assert (L : (length x <= n)%nat). { apply Z.ltb_ge in E. unfold zlen in *. rewrite firstn_length in E. lia. }
    replace (Z.of_nat n <? k) with false by (unfold zlen in *; lia). cbn [andb].
    subst k. unfold zlen. rewrite Nat2Z.id. f_equal. f_equal.
    + rewrite firstn_firstn. replace (Nat.min (length x) n) with (length x) by lia. rewrite firstn_app, firstn_all, Nat.sub_diag. cbn. apply app_nil_r.
    + rewrite firstn_app, skipn_app. rewrite firstn_all2 by lia. rewrite skipn_all, Nat.sub_diag. reflexivity.
Qed.
Lemma get_ok : forall k x y, zlen x = k -> get k (x ++ y) = Ok (x, y).
Proof.
  intros k x y H. unfold get. unfold zlen in *. rewrite app_length. replace (Z.of_nat (length x + length y) <? k) with false by lia.
  subst k. rewrite Nat2Z.id, firstn_app, skipn_app, firstn_all, skipn_all, Nat.sub_diag. cbn. rewrite app_nil_r. reflexivity.
Qed.
(** Either the whole field is there, or the reader fails. *)
Lemma get_cut : forall k x y n, zlen x = k -> (n < length (x ++ y))%nat ->
  ((n < length x)%nat /\ get k (firstn n (x ++ y)) = Throw "invalid state") \/
  ((length x <= n)%nat /\ get k (firstn n (x ++ y)) = Ok (x, firstn (n - length x) y) /\ (n - length x < length y)%nat).
Proof.
  intros k x y n H Hn. rewrite get_prefix by exact H. destruct (Nat.lt_ge_cases n (length x)) as [L|L].
  - left. split; [exact L|]. replace (Z.of_nat n <? k) with true by (unfold zlen in H; lia).
    replace (Z.of_nat n <? zlen (x ++ y)) with true by (unfold zlen; lia). reflexivity.
  - right. split; [exact L|]. replace (Z.of_nat n <? k) with false by (unfold zlen in H; lia). cbn [andb].
    replace (zlen (firstn n (x ++ y)) <? k) with false; [split; [reflexivity|rewrite app_length in Hn; lia]|].
    unfold zlen in *. rewrite firstn_length. lia.
Qed.

Section Size.
  Variable tsz : nat.
  Hypothesis tsz_pos : (0 < tsz)%nat.

  Definition u64 (z : Z) : Prop := 0 <= z < 2 ^ 64.
  Definition bits (z : Z) : Prop := 0 <= z < 256 ^ Z.of_nat tsz.
  (** Fields fit their types, and the vector of bins is addressable. *)
  Definition well_formed (h : raw_hist) : Prop :=
    u64 (r_bin_count h) /\ u64 (r_count h) /\ bits (r_min h) /\ bits (r_max h) /\
    Forall (fun b => bits (fst b) /\ bits (snd b)) (r_bins h) /\
    zlen (r_bins h) * (2 * Z.of_nat tsz) <= 2 ^ 63 - 1.

  Lemma bins_length : forall l, zlen (concat (map (bin_bytes tsz) l)) = zlen l * (2 * Z.of_nat tsz).
  Proof.
    induction l as [|b l IH]; [reflexivity|]. cbn [map concat]. unfold zlen in *. rewrite app_length. unfold bin_bytes at 1.
    rewrite app_length, !le_length. cbn [length]. lia.
  Qed.
  Lemma decode_ok : forall l y, Forall (fun b => bits (fst b) /\ bits (snd b)) l ->
    decode_bins tsz (length l) (concat (map (bin_bytes tsz) l) ++ y) = l.
  Proof.
    induction l as [|[a b] l IH]; intros y H; [reflexivity|]. inversion H as [|? ? [Ha Hb] H' X]; subst. cbn [fst snd] in *.
    cbn [length decode_bins map concat]. unfold bin_bytes at 1 3 5. cbn [fst snd]. rewrite <- !app_assoc.
    assert (F1 : forall z r, firstn tsz (le_bytes tsz z ++ r) = le_bytes tsz z).
    { intros z r. rewrite firstn_app, le_length, Nat.sub_diag. rewrite firstn_all2 by (rewrite le_length; lia). cbn. apply app_nil_r. }
    assert (F2 : forall z r, skipn tsz (le_bytes tsz z ++ r) = r).
    { intros z r. rewrite skipn_app, le_length, Nat.sub_diag. rewrite skipn_all2 by (rewrite le_length; lia). reflexivity. }
    rewrite F1, F2, F1. rewrite !le_round by assumption. f_equal.
    replace (skipn (tsz + tsz) (le_bytes tsz a ++ le_bytes tsz b ++ concat (map (bin_bytes tsz) l) ++ y))
      with (concat (map (bin_bytes tsz) l) ++ y); [apply IH; exact H'|].
    symmetry. rewrite app_assoc. rewrite skipn_app. rewrite skipn_all2 by (rewrite app_length, !le_length; lia).
    rewrite app_length, !le_length. rewrite Nat.sub_diag. reflexivity.
  Qed.

  Lemma size_u64 : forall h, well_formed h -> u64 (zlen (r_bins h)).
  Proof.
    intros h (_ & _ & _ & _ & _ & S). unfold u64. assert (1 <= 2 * Z.of_nat tsz) by lia. assert (0 <= zlen (r_bins h)) by (unfold zlen; lia).
    assert (zlen (r_bins h) <= zlen (r_bins h) * (2 * Z.of_nat tsz)) by nia. change (2 ^ 63) with 9223372036854775808 in *. change (2 ^ 64) with 18446744073709551616. lia.
  Qed.

  Lemma load_dump : forall h rest, well_formed h -> load tsz (dump tsz h ++ rest) = Ok h.
  Proof.
    intros h rest Hw. pose proof (size_u64 h Hw) as Su. destruct Hw as (H1 & H2 & H3 & H4 & H5 & H6). unfold load, dump. rewrite <- !app_assoc.
    rewrite (get_ok 1) by reflexivity. cbn [obind].
    rewrite (get_ok 8) by apply le_zlen. cbn [obind].
    rewrite (get_ok 8) by apply le_zlen. cbn [obind].
    rewrite (get_ok (Z.of_nat tsz)) by apply le_zlen. cbn [obind].
    rewrite (get_ok (Z.of_nat tsz)) by apply le_zlen. cbn [obind].
    rewrite (get_ok 8) by apply le_zlen. cbn [obind].
    rewrite le_round8 by exact Su. replace (2 ^ 63 - 1 <? zlen (r_bins h) * (2 * Z.of_nat tsz)) with false by lia.
    rewrite get_ok by apply bins_length. cbn [obind]. rewrite !le_round8 by assumption. rewrite !le_round by assumption.
    unfold zlen. rewrite Nat2Z.id. replace (concat (map (bin_bytes tsz) (r_bins h))) with (concat (map (bin_bytes tsz) (r_bins h)) ++ []) by apply app_nil_r.
    rewrite decode_ok by exact H5. destruct h as [w ? ? ? ? ?]; cbn. destruct w; reflexivity.
  Qed.

  Ltac cut k H :=
    match type of H with (?n < length (?x ++ ?y))%nat =>
      let E := fresh "E" in let L := fresh "L" in
      destruct (get_cut k x y n ltac:(first [reflexivity|apply le_zlen]) H) as [[L E]|(L & E & H')]; rewrite E; cbn [obind]; [reflexivity|];
      clear E H; rename H' into H
    end.
  Lemma load_truncated : forall h n, well_formed h -> (n < length (dump tsz h))%nat ->
    load tsz (firstn n (dump tsz h)) = Throw "invalid state".
  Proof.
    intros h n Hw Hn. pose proof (size_u64 h Hw) as Su. destruct Hw as (H1 & H2 & H3 & H4 & H5 & H6). unfold load, dump in *.
    cut 1 Hn. set (n1 := (n - _)%nat) in *. clearbody n1. clear n L.
    cut 8 Hn. set (n2 := (n1 - _)%nat) in *. clearbody n2. clear n1 L.
    cut 8 Hn. set (n3 := (n2 - _)%nat) in *. clearbody n3. clear n2 L.
    cut (Z.of_nat tsz) Hn. set (n4 := (n3 - _)%nat) in *. clearbody n4. clear n3 L.
    cut (Z.of_nat tsz) Hn. set (n5 := (n4 - _)%nat) in *. clearbody n5. clear n4 L.
    cut 8 Hn. set (n6 := (n5 - _)%nat) in *. clearbody n6. clear n5 L.
    rewrite le_round8 by exact Su. replace (2 ^ 63 - 1 <? zlen (r_bins h) * (2 * Z.of_nat tsz)) with false by lia.
    unfold get. replace (zlen (firstn n6 (concat (map (bin_bytes tsz) (r_bins h)))) <? zlen (r_bins h) * (2 * Z.of_nat tsz)) with true; [reflexivity|].
    pose proof (bins_length (r_bins h)). unfold zlen in *. rewrite firstn_length. lia.
  Qed.

  (** ** Arrays *)
  Definition item (h : raw_hist) : list Z := le_bytes 8 (zlen (dump tsz h)) ++ dump tsz h.
  Definition addressable (h : raw_hist) : Prop := zlen (dump tsz h) < 2 ^ 63.

  Lemma load_items_ok : forall l rest, Forall well_formed l -> Forall addressable l ->
    load_items tsz (length l) (concat (map item l) ++ rest) = Ok l.
  Proof.
    induction l as [|h l IH]; intros rest W A; [reflexivity|]. inversion W; inversion A; subst. cbn [length load_items map concat].
    unfold item at 1. rewrite <- !app_assoc. rewrite (get_ok 8) by apply le_zlen. cbn [obind]. unfold addressable in *.
    rewrite le_round8 by (split; [unfold zlen; lia|change (2 ^ 64) with (2 * 2 ^ 63); lia]).
    unfold get_view. replace (2 ^ 63 <=? zlen (dump tsz h)) with false by lia. rewrite get_ok by reflexivity. cbn [obind].
    pose proof (load_dump h [] H1) as E. rewrite app_nil_r in E. rewrite E. cbn [obind]. rewrite IH by assumption. reflexivity.
  Qed.
  Lemma load_items_cut : forall l n, Forall well_formed l -> Forall addressable l ->
    (n < length (concat (map item l)))%nat ->
    load_items tsz (length l) (firstn n (concat (map item l))) = Throw "invalid state".
  Proof.
    induction l as [|h l IH]; intros n W A Hn; [cbn in Hn; lia|]. inversion W; inversion A; subst. cbn [length load_items map concat] in *.
    unfold item at 1 in Hn. unfold item at 1. rewrite <- !app_assoc in *.
    cut 8 Hn. set (n1 := (n - _)%nat) in *. clearbody n1. clear n L. unfold addressable in *.
    rewrite le_round8 by (split; [unfold zlen; lia|change (2 ^ 64) with (2 * 2 ^ 63); lia]).
    unfold get_view. replace (2 ^ 63 <=? zlen (dump tsz h)) with false by lia.
    destruct (get_cut (zlen (dump tsz h)) (dump tsz h) _ n1 eq_refl Hn) as [[L E]|(L & E & H')]; rewrite E; cbn [obind]; [reflexivity|].
    pose proof (load_dump h [] H1) as E'. rewrite app_nil_r in E'. rewrite E'. cbn [obind].
    rewrite IH by assumption. reflexivity.
  Qed.
End Size.
