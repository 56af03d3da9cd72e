(** Base 32 text, and the conversion of textual codes between precisions. *)
From Verif Require Import Base BaseProofs GeohashModel GeohashSpec GeohashProofs GeohashProofs2 GeohashProofs3 GeohashProofs4 GeohashProofs5 GeohashProofs6.
From Coq Require Import Ascii Sorted Permutation.
Open Scope Z_scope.

Definition b32_char (d : Z) : ascii := nth (Z.to_nat d) b32_alphabet zero.

Lemma alphabet_facts : Forall (fun d => b32_table (b32_char d) = d /\ b32_validate_byte (b32_char d) = true
   /\ Ascii.eqb (b32_char d) zero = false /\ String.get (Z.to_nat d) digits = Some (b32_char d)) (zrange 32).
Proof.
  match goal with |- Forall _ ?l => let v := eval cbv in l in change l with v end.
  repeat (apply Forall_cons; [repeat split; reflexivity|]). apply Forall_nil.
Qed.

Lemma alphabet_ok : forall d, 0 <= d < 32 -> b32_table (b32_char d) = d /\ b32_validate_byte (b32_char d) = true
   /\ Ascii.eqb (b32_char d) zero = false /\ String.get (Z.to_nat d) digits = Some (b32_char d).
Proof. intros d Hd. apply (all_below 32 _ alphabet_facts). cbn; lia. Qed.

Lemma valid_char : forall c, b32_validate_byte c = true -> 0 <= b32_table c < 32 /\ b32_char (b32_table c) = c.
Proof.
  intros [[] [] [] [] [] [] [] []] H; vm_compute in H; try discriminate H; vm_compute; repeat split; congruence.
Qed.

Lemma digit_valid : forall c d, is_digit c d <-> 0 <= d < 32 /\ b32_validate_byte c = true /\ b32_table c = d.
Proof.
  intros c d. unfold is_digit. split.
  - intros [Hd Hg]. destruct (alphabet_ok d Hd) as (A & B & _ & D). rewrite D in Hg. injection Hg as <-. auto.
  - intros (Hd & V & <-). destruct (valid_char c V) as [R E]. destruct (alphabet_ok _ R) as (_ & _ & _ & D).
    split; [assumption|]. rewrite D, E. reflexivity.
Qed.

Lemma b32_encode_loop_app : forall n h acc, b32_encode_loop h n acc = b32_encode h n ++ acc.
Proof.
  unfold b32_encode. induction n as [|n IH]; intros h acc; [reflexivity|]. cbn [b32_encode_loop].
  rewrite IH, (IH _ [_]), <- app_assoc. reflexivity.
Qed.

Lemma b32_encode_snoc : forall n h, b32_encode h (S n) = b32_encode (h / 32) n ++ [b32_char (h mod 32)].
Proof.
  intros n h. unfold b32_encode at 1. cbn [b32_encode_loop]. rewrite b32_encode_loop_app.
  rewrite Z.shiftr_div_pow2 by lia. change (2 ^ 5) with 32. f_equal. f_equal. unfold b32_char.
  change 31 with (Z.ones 5). rewrite Z.land_ones by lia. reflexivity.
Qed.

Lemma b32_encode_length : forall n h, length (b32_encode h n) = n.
Proof.
  induction n as [|n IH]; intros h; [reflexivity|]. rewrite b32_encode_snoc, app_length, IH. cbn. lia.
Qed.

Lemma b32_encode_prefix : forall k n h, firstn n (b32_encode h (n + k)) = b32_encode (Z.shiftr h (5 * Z.of_nat k)) n.
Proof.
  induction k as [|k IH]; intros n h.
  - rewrite Nat.add_0_r. change (5 * Z.of_nat 0) with 0. rewrite Z.shiftr_0_r.
    rewrite <- (b32_encode_length n h) at 1. apply firstn_all.
  - rewrite Nat.add_succ_r, b32_encode_snoc. rewrite firstn_app, b32_encode_length.
    replace (n - (n + k))%nat with 0%nat by lia. cbn [firstn]. rewrite app_nil_r, IH. f_equal.
    replace (5 * Z.of_nat (S k)) with (5 + 5 * Z.of_nat k) by lia. rewrite <- Z.shiftr_shiftr by lia.
    f_equal. rewrite Z.shiftr_div_pow2 by lia. reflexivity.
Qed.

(** All characters of a text are letters of the alphabet. *)
Definition valid_text (t : list ascii) : Prop := Forall (fun c => b32_validate_byte c = true) t.

Lemma zero_invalid : b32_validate_byte zero = false.
Proof. reflexivity. Qed.

Lemma valid_not_zero : forall c, b32_validate_byte c = true -> Ascii.eqb c zero = false.
Proof. intros c H. destruct (Ascii.eqb_spec c zero); [subst; discriminate|reflexivity]. Qed.

Lemma decode_loop_valid : forall t h n, valid_text t ->
  b32_decode_loop t h n = Ok (fold_left (fun a c => Z.lor (shl64 a 5) (b32_table c)) t h, n + zlen t).
Proof.
  intros t h n H. revert h n. induction H as [|c t Hc _ IH]; intros h n; cbn [b32_decode_loop].
  - unfold zlen. cbn. f_equal. f_equal. lia.
  - rewrite (valid_not_zero c Hc), Hc, IH. cbn [fold_left]. f_equal. f_equal. unfold zlen. cbn [length]. lia.
Qed.

Lemma lor_shl64 : forall a d, 0 <= a < 2 ^ 59 -> 0 <= d < 32 -> Z.lor (shl64 a 5) d = 32 * a + d.
Proof.
  intros a d Ha Hd.
  assert (E : shl64 a 5 = 32 * a).
  { unfold shl64. change mask64 with (Z.ones 64). rewrite Z.land_ones by lia. rewrite Z.shiftl_mul_pow2 by lia.
    change (2 ^ 5) with 32. rewrite Z.mod_small; lia. }
  rewrite E.
  assert (L : Z.land (32 * a) d = 0).
  { apply Z.bits_inj'. intros i Hi. rewrite Z.bits_0, Z.land_spec.
    destruct (Z_lt_ge_dec i 5).
    - replace (32 * a) with (Z.shiftl a 5) by (rewrite Z.shiftl_mul_pow2 by lia; change (2 ^ 5) with 32; lia).
      rewrite Z.shiftl_spec, Z.testbit_neg_r by lia. reflexivity.
    - rewrite (bits_high d 5) by lia. apply andb_false_r. }
  rewrite Z.add_nocarry_lxor by assumption. symmetry. apply Z.lxor_lor. assumption.
Qed.

(** Value of a text of at most 12 letters. *)
Definition text_value (t : list ascii) : Z := fold_left (fun a c => 32 * a + b32_table c) t 0.

Lemma text_value_snoc : forall t c, text_value (t ++ [c]) = 32 * text_value t + b32_table c.
Proof. intros. unfold text_value. rewrite fold_left_app. reflexivity. Qed.

Lemma pow5_succ : forall n, 2 ^ (5 * (n + 1)) = 32 * 2 ^ (5 * n) \/ n < 0.
Proof. intros n. destruct (Z_lt_ge_dec n 0); [right; assumption|left]. replace (5 * (n + 1)) with (5 + 5 * n) by lia. rewrite Z.pow_add_r by lia. reflexivity. Qed.

Lemma text_value_range : forall t, valid_text t -> is_code (5 * zlen t) (text_value t).
Proof.
  intros t. induction t as [|c t IH] using rev_ind; intros H.
  - unfold is_code. cbn. lia.
  - apply Forall_app in H. destruct H as [H1 H2]. inversion H2; subst. specialize (IH H1).
    destruct (valid_char c H3) as [R _]. rewrite text_value_snoc. unfold is_code in *. unfold zlen in *. rewrite app_length.
    cbn [length]. rewrite Nat2Z.inj_add. change (Z.of_nat 1) with 1. destruct (pow5_succ (Z.of_nat (length t))); lia.
Qed.

Lemma text_value_fold : forall t, valid_text t -> (length t <= 12)%nat ->
  fold_left (fun a c => Z.lor (shl64 a 5) (b32_table c)) t 0 = text_value t.
Proof.
  intros t. induction t as [|c t IH] using rev_ind; intros H L; [reflexivity|].
  apply Forall_app in H. destruct H as [H1 H2]. inversion H2; subst.
  rewrite app_length in L. cbn [length] in L. rewrite fold_left_app. cbn [fold_left]. rewrite IH by (try assumption; lia).
  rewrite text_value_snoc. destruct (valid_char c H3) as [R _].
  apply lor_shl64; [|assumption]. pose proof (text_value_range t H1) as T. unfold is_code, zlen in T.
  split; [lia|]. eapply Z.lt_le_trans; [apply T|]. apply Z.pow_le_mono_r; lia.
Qed.

Lemma b32_decode_valid : forall t, valid_text t -> (length t <= 12)%nat ->
  b32_decode t = Ok (text_value t, zlen t).
Proof.
  intros t H L. unfold b32_decode. rewrite decode_loop_valid by assumption. rewrite text_value_fold by assumption. reflexivity.
Qed.

Lemma b32_encode_valid : forall n h, valid_text (b32_encode h n).
Proof.
  unfold valid_text. induction n as [|n IH]; intros h; [constructor|]. rewrite b32_encode_snoc.
  apply Forall_app. split; [apply IH|]. constructor; [|constructor].
  apply alphabet_ok. apply Z.mod_pos_bound. lia.
Qed.

Lemma text_value_encode : forall n h, text_value (b32_encode h n) = h mod 2 ^ (5 * Z.of_nat n).
Proof.
  induction n as [|n IH]; intros h.
  - cbn. rewrite Z.mod_1_r. reflexivity.
  - rewrite b32_encode_snoc, text_value_snoc, IH.
    destruct (alphabet_ok (h mod 32)) as (T & _); [apply Z.mod_pos_bound; lia|]. rewrite T.
    rewrite Nat2Z.inj_succ. unfold Z.succ. destruct (pow5_succ (Z.of_nat n)) as [E|]; [|lia]. rewrite E.
    assert (0 < 2 ^ (5 * Z.of_nat n)) by (apply Z.pow_pos_nonneg; lia).
    rewrite Z.rem_mul_r by lia. lia.
Qed.

Lemma encode_text_value : forall t, valid_text t -> b32_encode (text_value t) (length t) = t.
Proof.
  intros t. induction t as [|c t IH] using rev_ind; intros H; [reflexivity|].
  apply Forall_app in H. destruct H as [H1 H2]. inversion H2; subst. destruct (valid_char c H3) as [R E].
  rewrite app_length. cbn [length]. rewrite Nat.add_1_r, b32_encode_snoc, text_value_snoc.
  replace ((32 * text_value t + b32_table c) / 32) with (text_value t) by (Z.div_mod_to_equations; lia).
  replace ((32 * text_value t + b32_table c) mod 32) with (b32_table c) by (Z.div_mod_to_equations; lia).
  rewrite IH, E by assumption. reflexivity.
Qed.

Lemma b32_encode_inj : forall n h g, is_code (5 * Z.of_nat n) h -> is_code (5 * Z.of_nat n) g ->
  b32_encode h n = b32_encode g n -> h = g.
Proof.
  intros n h g Hh Hg E. apply (f_equal text_value) in E. rewrite !text_value_encode in E.
  unfold is_code in *. rewrite !Z.mod_small in E by assumption. assumption.
Qed.

Lemma reads_as_value : forall t acc v, reads_as t acc v <->
  valid_text t /\ v = fold_left (fun a c => 32 * a + b32_table c) t acc.
Proof.
  induction t as [|c t IH]; intros acc v; cbn [reads_as fold_left].
  - split; [intros; split; [constructor|assumption]|tauto].
  - split.
    + intros (d & Hd & H). apply digit_valid in Hd. destruct Hd as (R & V & <-). apply IH in H. destruct H as [H1 H2].
      split; [constructor; assumption|assumption].
    + intros [H E]. inversion H; subst. exists (b32_table c). destruct (valid_char c H2) as [R _].
      split; [apply digit_valid; auto|]. apply IH. auto.
Qed.

(* ------------------------------------------------------------------ *)
(** Text: bounding box, decoding, zoom out *)

Lemma text_box : forall bmi2 t, valid_text t -> (1 <= length t <= 12)%nat ->
  exists b, str_bounding_box bmi2 t = Ok b /\ same_cell (cell_of_box b) (cell_of (5 * length t) (text_value t)).
Proof.
  intros bmi2 t V L. unfold str_bounding_box. rewrite b32_decode_valid by (try assumption; lia). cbn [obind].
  replace (5 * zlen t) with (Z.of_nat (5 * length t)) by (unfold zlen; lia).
  destruct (no_last (5 * length t) (text_value t) ltac:(lia)) as [N1 N2]. apply box_cell_of; try assumption; lia.
Qed.

Lemma text_code : forall t, valid_text t -> is_code (Z.of_nat (5 * length t)) (text_value t).
Proof. intros t V. replace (Z.of_nat (5 * length t)) with (5 * zlen t) by (unfold zlen; lia). apply text_value_range. assumption. Qed.

Lemma text_decode : forall bmi2 t round, valid_text t -> (1 <= length t <= 12)%nat ->
  exists pt, str_decode bmi2 t round = Ok pt /\
    in_half_open (cell_of (5 * length t) (text_value t)) (p_lon pt) (p_lat pt).
Proof.
  intros bmi2 t round V L. destruct (text_box bmi2 t V L) as (b & E & S). unfold str_decode. rewrite E. cbn [obind].
  eexists. split; [reflexivity|]. destruct (cell_of_wf (5 * length t) (text_value t)) as [W1 W2].
  pose proof (cell_size_min (5 * length t) (text_value t) ltac:(lia)) as [M1 M2].
  destruct round; [apply box_round_inside; assumption|apply centroid_inside; assumption].
Qed.

Lemma str_encode_ok : forall bmi2 pt n h, (1 <= n <= 12)%nat ->
  gh_encode bmi2 pt (Z.of_nat (5 * n)) = Ok h -> str_encode bmi2 pt (Z.of_nat n) = Ok (b32_encode h n).
Proof.
  intros bmi2 pt n h Hn E. unfold str_encode. replace (5 * Z.of_nat n) with (Z.of_nat (5 * n)) by lia.
  rewrite E. cbn [obind]. rewrite Nat2Z.id. reflexivity.
Qed.

Lemma half_open_in_range : forall p h pt, in_half_open (cell_of p h) (p_lon pt) (p_lat pt) -> in_range pt.
Proof.
  intros p h pt (H1 & H2 & H3 & H4). destruct (cell_of_edges p h) as (W & E & S & N). cbn [west east south north] in *.
  pose proof (bits_nonneg p) as (_ & B1 & B2). pose proof (lonx_range p h). pose proof (latx_range p h).
  pose proof (edge_ge_r 180 _ (lonx p h) ltac:(reflexivity) B1 ltac:(lia)).
  pose proof (edge_ge_r 90 _ (latx p h) ltac:(reflexivity) B2 ltac:(lia)).
  pose proof (edge_le_r 180 _ (lonx p h + 1) ltac:(reflexivity) B1 ltac:(lia)).
  pose proof (edge_le_r 90 _ (latx p h + 1) ltac:(reflexivity) B2 ltac:(lia)).
  unfold in_range. repeat split; lra.
Qed.

(** Re-encoding the centre of a textual cell with fewer letters gives its prefix. *)
Lemma reencode_prefix : forall bmi2 t n, valid_text t -> (length t <= 12)%nat -> (1 <= n <= length t)%nat ->
  (olet p := str_decode bmi2 t false in str_encode bmi2 p (Z.of_nat n)) = Ok (firstn n t).
Proof.
  intros bmi2 t n V L Hn. destruct (text_decode bmi2 t false V ltac:(lia)) as (pt & E & H). rewrite E. cbn [obind].
  pose proof (encode_of_cell bmi2 (5 * length t) (text_value t) pt ltac:(lia) (text_code t V) H) as EC.
  pose proof (gh_encode_prefix bmi2 pt (5 * n) (5 * length t) _ ltac:(lia) ltac:(lia) ltac:(lia) EC) as EP.
  rewrite (str_encode_ok bmi2 pt n _ ltac:(lia) EP). f_equal.
  replace (Z.of_nat (5 * length t) - Z.of_nat (5 * n)) with (5 * Z.of_nat (length t - n)) by lia.
  rewrite <- b32_encode_prefix. replace (n + (length t - n))%nat with (length t) by lia.
  rewrite encode_text_value by assumption. reflexivity.
Qed.

Lemma N_of_ascii_inj : forall x y, N_of_ascii x = N_of_ascii y -> x = y.
Proof. intros x y H. rewrite <- (ascii_N_embedding x), <- (ascii_N_embedding y), H. reflexivity. Qed.

Lemma code_cmp_eq : forall a b, code_cmp a b = Eq <-> a = b.
Proof.
  induction a as [|x a IH]; destruct b as [|y b]; cbn [code_cmp]; try (split; congruence).
  destruct (N.compare_spec (N_of_ascii x) (N_of_ascii y)) as [E|E|E].
  - apply N_of_ascii_inj in E. subst y. rewrite IH. split; congruence.
  - split; [discriminate|]. intros H. injection H as -> _. lia.
  - split; [discriminate|]. intros H. injection H as -> _. lia.
Qed.

Lemma code_cmp_antisym : forall a b, code_cmp a b = CompOpp (code_cmp b a).
Proof.
  induction a as [|x a IH]; destruct b as [|y b]; cbn [code_cmp CompOpp]; try reflexivity.
  rewrite (N.compare_antisym (N_of_ascii y) (N_of_ascii x)).
  destruct (N_of_ascii y ?= N_of_ascii x)%N; cbn [CompOpp]; [apply IH|reflexivity|reflexivity].
Qed.

Lemma code_cmp_trans : forall a b c, code_cmp a b = Lt -> code_cmp b c = Lt -> code_cmp a c = Lt.
Proof.
  induction a as [|x a IH]; destruct b as [|y b], c as [|z c]; cbn [code_cmp]; try congruence.
  destruct (N.compare_spec (N_of_ascii x) (N_of_ascii y)) as [E1|E1|E1];
  destruct (N.compare_spec (N_of_ascii y) (N_of_ascii z)) as [E2|E2|E2]; intros H1 H2; try discriminate.
  - rewrite E1, E2, N.compare_refl. eapply IH; eassumption.
  - rewrite E1. apply N.compare_lt_iff in E2. rewrite E2. reflexivity.
  - rewrite <- E2. apply N.compare_lt_iff in E1. rewrite E1. reflexivity.
  - assert (E3 : (N_of_ascii x < N_of_ascii z)%N) by lia. apply N.compare_lt_iff in E3. rewrite E3. reflexivity.
Qed.

Definition code_lt (a b : list ascii) : Prop := code_cmp a b = Lt.

Lemma set_emplace_in : forall c s x, In x (set_emplace c s) <-> x = c \/ In x s.
Proof.
  intros c s x. induction s as [|h t IH]; cbn [set_emplace].
  - cbn. intuition.
  - destruct (code_cmp c h) eqn:E.
    + apply code_cmp_eq in E. subst h. cbn. intuition.
    + cbn. intuition.
    + cbn [In]. rewrite IH. intuition.
Qed.

Lemma set_emplace_sorted : forall c s, StronglySorted code_lt s -> StronglySorted code_lt (set_emplace c s).
Proof.
  intros c s H. induction H as [|h t Hs IH Hf]; cbn [set_emplace].
  - constructor; constructor.
  - destruct (code_cmp c h) eqn:E.
    + constructor; assumption.
    + constructor; [constructor; assumption|]. constructor; [exact E|].
      eapply Forall_impl; [|exact Hf]. intros a Ha. eapply code_cmp_trans; [exact E|exact Ha].
    + constructor; [assumption|]. rewrite Forall_forall in *. intros x Hx. apply set_emplace_in in Hx.
      destruct Hx as [->|Hx]; [|apply Hf; assumption]. unfold code_lt. rewrite code_cmp_antisym, E. reflexivity.
Qed.

Lemma fold_emplace : forall l s, StronglySorted code_lt s ->
  StronglySorted code_lt (fold_left (fun s c => set_emplace c s) l s) /\
  forall x, In x (fold_left (fun s c => set_emplace c s) l s) <-> In x l \/ In x s.
Proof.
  induction l as [|a l IH]; intros s Hs; cbn [fold_left].
  - split; [assumption|]. intros; cbn; tauto.
  - destruct (IH (set_emplace a s) (set_emplace_sorted a s Hs)) as [A B]. split; [assumption|].
    intros x. rewrite B, set_emplace_in. cbn [In]. intuition.
Qed.

Lemma zoom_out_ok : forall bmi2 codes n m, (1 <= n)%nat -> (n <= m)%nat -> (m <= 12)%nat ->
  Forall (fun t => valid_text t /\ length t = m) codes ->
  exists l, zoom_out bmi2 codes (Z.of_nat n) = Ok l /\ StronglySorted code_lt l /\
    forall x, In x l <-> exists t, In t codes /\ x = firstn n t.
Proof.
  intros bmi2 codes n m Hn Hm H12 F. unfold zoom_out.
  rewrite (oseq_map_ok _ (firstn n) codes).
  2:{ intros t Ht. rewrite Forall_forall in F. destruct (F t Ht) as [V L]. apply reencode_prefix; try assumption; lia. }
  cbn [obind]. destruct (fold_emplace (map (firstn n) codes) [] (SSorted_nil _)) as [A B].
  eexists. split; [reflexivity|]. split; [assumption|]. intros x. rewrite B, in_map_iff. cbn [In].
  split; [intros [(t & <- & Ht)|[]]; eauto|intros (t & Ht & ->); left; eauto].
Qed.

(* ------------------------------------------------------------------ *)
(** Zoom in *)

Lemma lonx_ancestor : forall p k h, lonx p (Z.shiftr h (Z.of_nat k)) = lonx (p + k) h / 2 ^ (lonb (Z.of_nat (p + k)) - lonb (Z.of_nat p)).
Proof.
  intros p k h. set (d := lonb (Z.of_nat (p + k)) - lonb (Z.of_nat p)).
  assert (D : 0 <= d /\ 2 * d - Z.of_nat (p + k) mod 2 = Z.of_nat k - Z.of_nat p mod 2).
  { unfold d, lonb. rewrite Nat2Z.inj_add. Z.div_mod_to_equations. lia. }
  pose proof (lonx_range (p + k) h). pose proof (lonx_range p (Z.shiftr h (Z.of_nat k))).
  apply bits_eq; [lia|apply Z.div_pos; [lia|apply Z.pow_pos_nonneg; lia]|]. intros i Hi.
  pose proof (Z.mod_pos_bound (Z.of_nat p) 2 ltac:(lia)).
  rewrite <- Z.shiftr_div_pow2, Z.shiftr_spec, !lonx_bits, Z.shiftr_spec by lia.
  replace (2 * (i + d) + 1 - Z.of_nat (p + k) mod 2) with (2 * i + 1 - Z.of_nat p mod 2 + Z.of_nat k) by lia.
  f_equal. unfold d. destruct (Z.ltb_spec i (lonb (Z.of_nat p))),
    (Z.ltb_spec (i + (lonb (Z.of_nat (p + k)) - lonb (Z.of_nat p))) (lonb (Z.of_nat (p + k)))); lia.
Qed.

Lemma latx_ancestor : forall p k h, latx p (Z.shiftr h (Z.of_nat k)) = latx (p + k) h / 2 ^ (latb (Z.of_nat (p + k)) - latb (Z.of_nat p)).
Proof.
  intros p k h. set (d := latb (Z.of_nat (p + k)) - latb (Z.of_nat p)).
  assert (D : 0 <= d /\ 2 * d + Z.of_nat (p + k) mod 2 = Z.of_nat k + Z.of_nat p mod 2).
  { unfold d, latb. rewrite Nat2Z.inj_add. Z.div_mod_to_equations. lia. }
  pose proof (latx_range (p + k) h). pose proof (latx_range p (Z.shiftr h (Z.of_nat k))).
  apply bits_eq; [lia|apply Z.div_pos; [lia|apply Z.pow_pos_nonneg; lia]|]. intros i Hi.
  pose proof (Z.mod_pos_bound (Z.of_nat p) 2 ltac:(lia)).
  rewrite <- Z.shiftr_div_pow2, Z.shiftr_spec, !latx_bits, Z.shiftr_spec by lia.
  replace (2 * (i + d) + Z.of_nat (p + k) mod 2) with (2 * i + Z.of_nat p mod 2 + Z.of_nat k) by lia.
  f_equal. unfold d. destruct (Z.ltb_spec i (latb (Z.of_nat p))),
    (Z.ltb_spec (i + (latb (Z.of_nat (p + k)) - latb (Z.of_nat p))) (latb (Z.of_nat (p + k)))); lia.
Qed.

Lemma edge_refine : forall r n d a, 0 <= n -> 0 <= d -> (edge r (n + d) (a * 2 ^ d) == edge r n a)%Q.
Proof.
  intros r n d a Hn Hd. unfold edge. rewrite Z.pow_add_r, !inject_Z_mult by lia.
  pose proof (inject_pow_pos n Hn). pose proof (inject_pow_pos d Hd). field. split; lra.
Qed.

Lemma edge_lt_iff : forall r n a b, (0 < r)%Q -> 0 <= n -> (edge r n a < edge r n b)%Q <-> a < b.
Proof.
  intros r n a b Hr Hn. split; [|intros; apply edge_lt; assumption].
  intros H. destruct (Z_lt_ge_dec a b) as [L|L]; [assumption|exfalso].
  pose proof (edge_mono r n b a Hr Hn ltac:(lia)). lra.
Qed.
Lemma edge_le_iff : forall r n a b, (0 < r)%Q -> 0 <= n -> (edge r n a <= edge r n b)%Q <-> a <= b.
Proof.
  intros r n a b Hr Hn. split; [|intros; apply edge_mono; assumption].
  intros H. destruct (Z_le_gt_dec a b) as [L|L]; [assumption|exfalso].
  pose proof (edge_lt r n b a Hr Hn ltac:(lia)). lra.
Qed.

Lemma div_bounds : forall a c d, 0 <= d -> (c * 2 ^ d < a + 1 /\ a + 1 <= (c + 1) * 2 ^ d) <-> a / 2 ^ d = c.
Proof.
  intros a c d Hd. assert (0 < 2 ^ d) by (apply Z.pow_pos_nonneg; lia). split.
  - intros [H1 H2]. symmetry. apply Z.div_unique with (a - c * 2 ^ d); [left; lia|lia].
  - intros <-. pose proof (Z.div_mod a (2 ^ d) ltac:(lia)). pose proof (Z.mod_pos_bound a (2 ^ d) ltac:(lia)). nia.
Qed.

(** The cells enumerated in the box of a cell are its descendants. *)
Lemma children_ok : forall bmi2 b p k h, (1 <= p)%nat -> (2 <= k)%nat -> (p + k <= 62)%nat ->
  is_code (Z.of_nat p) h -> same_cell (cell_of_box b) (cell_of p h) ->
  exists l, bounding_boxes bmi2 b (Z.of_nat (p + k)) = Ok l /\ NoDup l /\
    forall g, In g l <-> is_code (Z.of_nat (p + k)) g /\ Z.shiftr g (Z.of_nat k) = h.
Proof.
  intros bmi2 b p k h Hp Hk Hpk Hc S.
  destruct S as (W & Ea & So & N). unfold cell_of_box in *. cbn [west east south north] in *.
  destruct (cell_of_edges p h) as (W' & Ea' & So' & N'). cbn [west east south north] in *.
  pose proof (bits_nonneg p) as (_ & B1 & B2). pose proof (lonx_range p h) as R1. pose proof (latx_range p h) as R2.
  pose proof (edge_ge_r 180 _ (lonx p h) ltac:(reflexivity) B1 ltac:(lia)).
  pose proof (edge_ge_r 90 _ (latx p h) ltac:(reflexivity) B2 ltac:(lia)).
  pose proof (edge_le_r 180 _ (lonx p h + 1) ltac:(reflexivity) B1 ltac:(lia)).
  pose proof (edge_le_r 90 _ (latx p h + 1) ltac:(reflexivity) B2 ltac:(lia)).
  pose proof (edge_lt 180 (lonb (Z.of_nat p)) (lonx p h) (lonx p h + 1) ltac:(reflexivity) B1 ltac:(lia)).
  pose proof (edge_lt 90 (latb (Z.of_nat p)) (latx p h) (latx p h + 1) ltac:(reflexivity) B2 ltac:(lia)).
  assert (Hw : wf_box b) by (unfold wf_box, in_range; repeat split; lra).
  set (d1 := lonb (Z.of_nat (p + k)) - lonb (Z.of_nat p)).
  set (d2 := latb (Z.of_nat (p + k)) - latb (Z.of_nat p)).
  assert (D : 1 <= d1 /\ 1 <= d2) by (unfold d1, d2, lonb, latb; rewrite Nat2Z.inj_add; Z.div_mod_to_equations; lia).
  destruct D as [D1 D2].
  assert (Lf : lonb (Z.of_nat (p + k)) = lonb (Z.of_nat p) + d1) by (unfold d1; lia).
  assert (Tf : latb (Z.of_nat (p + k)) = latb (Z.of_nat p) + d2) by (unfold d2; lia).
  assert (No : ~ one_cell b (p + k)).
  { intros [O1 O2]. destruct Hw as ((r1 & r2 & r3 & r4) & (s1 & s2 & s3 & s4) & L1 & L2).
    pose proof (bits_nonneg (p + k)) as (_ & F1 & _).
    destruct (qidx_in (p_lon (min_corner b)) 180 _ ltac:(reflexivity) r1 r2 F1) as (X1 & _ & _).
    destruct (qidx_in (p_lon (max_corner b)) 180 _ ltac:(reflexivity) s1 s2 F1) as (_ & X2 & _).
    rewrite O1 in X2. set (q := qidx (p_lon (min_corner b)) 180 (lonb (Z.of_nat (p + k)))) in *.
    rewrite W, W', <- (edge_refine 180 _ d1 _ B1 ltac:(lia)), <- Lf in X1.
    rewrite Ea, Ea', <- (edge_refine 180 _ d1 _ B1 ltac:(lia)), <- Lf in X2.
    apply edge_le_iff in X1; [|reflexivity|assumption]. apply edge_le_iff in X2; [|reflexivity|assumption].
    replace d1 with (1 + (d1 - 1)) in X1, X2 by lia. rewrite Z.pow_add_r in X1, X2 by lia.
    assert (0 < 2 ^ (d1 - 1)) by (apply Z.pow_pos_nonneg; lia). change (2 ^ 1) with 2 in *. nia. }
  destruct (bounding_boxes_sorted bmi2 b (p + k) ltac:(lia) Hw) as (l & E & Srt).
  exists l. split; [assumption|]. split; [eapply StronglySorted_NoDup; [apply row_major_irrefl|eassumption]|].
  intros g. rewrite (bounding_boxes_content bmi2 b (p + k) l ltac:(lia) Hw ltac:(lra) ltac:(lra) E No g).
  destruct (cell_of_edges (p + k) g) as (_ & Eg & _ & Ng). cbn [west east south north] in *.
  rewrite Eg, Ng, W, W', Ea, Ea', So, So', N, N'.
  rewrite <- (edge_refine 180 (lonb (Z.of_nat p)) d1 (lonx p h)), <- (edge_refine 180 (lonb (Z.of_nat p)) d1 (lonx p h + 1)) by lia.
  rewrite <- (edge_refine 90 (latb (Z.of_nat p)) d2 (latx p h)), <- (edge_refine 90 (latb (Z.of_nat p)) d2 (latx p h + 1)) by lia.
  rewrite <- Lf, <- Tf. pose proof (bits_nonneg (p + k)) as (_ & F1 & F2).
  rewrite !edge_lt_iff, !edge_le_iff by (try assumption; reflexivity).
  rewrite !div_bounds by lia. pose proof (lonx_ancestor p k g) as A1. pose proof (latx_ancestor p k g) as A2.
  fold d1 in A1. fold d2 in A2. rewrite <- A1, <- A2.
  split.
  - intros (C & E1 & E2). split; [assumption|]. apply (idx_inj p); try assumption.
    unfold is_code in *. rewrite Nat2Z.inj_add, Z.pow_add_r in C by lia.
    split; [apply Z.shiftr_nonneg; lia|]. rewrite Z.shiftr_div_pow2 by lia.
    apply Z.div_lt_upper_bound; [apply Z.pow_pos_nonneg; lia|lia].
  - intros (C & <-). auto.
Qed.

Lemma children_perm : forall k h l, 0 <= h -> 0 <= k -> NoDup l ->
  (forall g, In g l <-> 0 <= g /\ Z.shiftr g k = h) ->
  zlen l = 2 ^ k.
Proof.
  intros k h l Hh Hk Hn Hi. assert (P : 0 < 2 ^ k) by (apply Z.pow_pos_nonneg; lia).
  assert (Permutation l (map (fun i => h * 2 ^ k + i) (zrange (2 ^ k)))).
  { apply NoDup_Permutation; [assumption| |].
    - apply FinFun.Injective_map_NoDup; [intros x y H; lia|]. unfold zrange.
      apply FinFun.Injective_map_NoDup; [intros x y H; lia|apply seq_NoDup].
    - intros g. rewrite Hi, in_map_iff. rewrite Z.shiftr_div_pow2 by lia. split.
      + intros [H0 <-]. exists (g mod 2 ^ k). rewrite in_zrange. split; [|apply Z.mod_pos_bound; lia].
        pose proof (Z.div_mod g (2 ^ k)). lia.
      + intros (i & <- & H). rewrite in_zrange in H. split; [nia|]. symmetry. apply Z.div_unique with i; [left; lia|lia]. }
  unfold zlen. rewrite (Permutation_length H), map_length. unfold zrange. rewrite map_length, seq_length. lia.
Qed.

(** Textual children. *)
Lemma text_children : forall bmi2 t m, valid_text t -> (1 <= length t)%nat -> (length t < m)%nat -> (m <= 12)%nat ->
  exists l, (olet b := str_bounding_box bmi2 t in bounding_boxes bmi2 b (Z.of_nat m * 5)) = Ok l /\
    zlen l = 2 ^ (5 * (Z.of_nat m - zlen t)) /\
    NoDup (map (fun h => b32_encode h m) l) /\
    forall x, In x (map (fun h => b32_encode h m) l) <-> valid_text x /\ length x = m /\ firstn (length t) x = t.
Proof.
  intros bmi2 t m V L1 L2 L3. destruct (text_box bmi2 t V ltac:(lia)) as (b & E & S).
  destruct (children_ok bmi2 b (5 * length t) (5 * (m - length t)) (text_value t) ltac:(lia) ltac:(lia) ltac:(lia)
              (text_code t V) S) as (l & El & Nd & Hin).
  exists l. rewrite E. cbn [obind]. replace (5 * length t + 5 * (m - length t))%nat with (5 * m)%nat in * by lia.
  replace (Z.of_nat m * 5) with (Z.of_nat (5 * m)) by lia. split; [assumption|].
  pose proof (text_code t V) as TC. unfold is_code in TC.
  assert (Hcode : forall g, 0 <= g -> Z.shiftr g (Z.of_nat (5 * (m - length t))) = text_value t -> is_code (Z.of_nat (5 * m)) g).
  { intros g Hg Hs. split; [assumption|]. rewrite Z.shiftr_div_pow2 in Hs by lia.
    assert (0 < 2 ^ Z.of_nat (5 * (m - length t))) by (apply Z.pow_pos_nonneg; lia).
    pose proof (Z.div_mod g (2 ^ Z.of_nat (5 * (m - length t))) ltac:(lia)) as DM. rewrite Hs in DM.
    pose proof (Z.mod_pos_bound g (2 ^ Z.of_nat (5 * (m - length t))) ltac:(lia)).
    replace (Z.of_nat (5 * m)) with (Z.of_nat (5 * length t) + Z.of_nat (5 * (m - length t))) by lia.
    rewrite Z.pow_add_r by lia. nia. }
  split; [|split].
  - replace (5 * (Z.of_nat m - zlen t)) with (Z.of_nat (5 * (m - length t))) by (unfold zlen; lia).
    apply children_perm with (text_value t); [lia|lia|assumption|].
    intros g. rewrite Hin. split; [intros [C S']; split; [unfold is_code in C; lia|assumption]|].
    intros [C S']. split; [apply Hcode; assumption|assumption].
  - clear El. assert (FC : Forall (fun g => is_code (5 * Z.of_nat m) g) l).
    { apply Forall_forall. intros g Hg. apply Hin in Hg. replace (5 * Z.of_nat m) with (Z.of_nat (5 * m)) by lia. apply Hg. }
    clear Hin. induction Nd as [|g l Hng Nd IH]; [constructor|]. inversion FC; subst. cbn [map]. constructor; [|apply IH; assumption].
    intros C. apply in_map_iff in C. destruct C as (g' & Eg & Hg'). rewrite Forall_forall in H2.
    apply b32_encode_inj in Eg; [subst; contradiction|apply H2; assumption|assumption].
  - intros x. rewrite in_map_iff. split.
    + intros (g & <- & Hg). apply Hin in Hg. destruct Hg as [C S'].
      split; [apply b32_encode_valid|]. split; [apply b32_encode_length|].
      replace m with (length t + (m - length t))%nat at 1 by lia. rewrite b32_encode_prefix.
      replace (5 * Z.of_nat (m - length t)) with (Z.of_nat (5 * (m - length t))) by lia. rewrite S'.
      apply encode_text_value. assumption.
    + intros (Vx & Lx & Fx). exists (text_value x). split; [rewrite <- Lx; apply encode_text_value; assumption|].
      apply Hin. pose proof (text_code x Vx) as Cx. rewrite Lx in Cx. split; [assumption|].
      assert (P : b32_encode (Z.shiftr (text_value x) (5 * Z.of_nat (m - length t))) (length t) = t).
      { rewrite <- b32_encode_prefix. replace (length t + (m - length t))%nat with (length x) by lia.
        rewrite encode_text_value by assumption. assumption. }
      replace (Z.of_nat (5 * (m - length t))) with (5 * Z.of_nat (m - length t)) by lia.
      apply (f_equal text_value) in P. rewrite text_value_encode in P. rewrite Z.mod_small in P; [assumption|].
      unfold is_code in Cx. split; [apply Z.shiftr_nonneg; lia|]. rewrite Z.shiftr_div_pow2 by lia.
      apply Z.div_lt_upper_bound; [apply Z.pow_pos_nonneg; lia|]. rewrite <- Z.pow_add_r by lia.
      replace (5 * Z.of_nat (m - length t) + 5 * Z.of_nat (length t)) with (Z.of_nat (5 * m)) by lia. apply Cx.
Qed.

Lemma zoom_in_ok : forall bmi2 codes n m, (1 <= n)%nat -> (n < m)%nat -> (m <= 12)%nat ->
  Forall (fun t => valid_text t /\ length t = n) codes ->
  exists ll, zoom_in bmi2 codes (Z.of_nat n) (Z.of_nat m) = Ok (concat ll) /\
    Forall2 (fun t l => NoDup l /\ zlen l = 2 ^ (5 * (Z.of_nat m - Z.of_nat n)) /\
       forall x, In x l <-> valid_text x /\ length x = m /\ firstn n x = t) codes ll.
Proof.
  intros bmi2 codes n m Hn Hm H12 F. unfold zoom_in.
  destruct (oseq_forall2 (fun t l => zlen l = 2 ^ (5 * (Z.of_nat m - zlen t)) /\
    NoDup (map (fun h => b32_encode h m) l) /\
    forall x, In x (map (fun h => b32_encode h m) l) <-> valid_text x /\ length x = m /\ firstn (length t) x = t)
    (fun c => olet b := str_bounding_box bmi2 c in bounding_boxes bmi2 b (Z.of_nat m * 5)) codes) as (ll & E & F2).
  { eapply Forall_impl; [|exact F]. intros t [V L]. cbv beta. destruct (text_children bmi2 t m V ltac:(lia) ltac:(lia) H12) as (l & E & R).
    exists l. split; [assumption|exact R]. }
  rewrite E. cbn [obind]. rewrite Nat2Z.id. clear E.
  exists (map (map (fun h => b32_encode h m)) ll). rewrite <- concat_map.
  set (f := fun h => b32_encode h m) in *.
  assert (Len : zlen (map f (concat ll)) = zoom_in_size (zlen codes) (Z.of_nat n) (Z.of_nat m)).
  { unfold zoom_in_size. rewrite Z.shiftl_mul_pow2 by lia.
    assert (P2 : 2 * 2 ^ (5 * (Z.of_nat m - Z.of_nat n) - 1) = 2 ^ (5 * (Z.of_nat m - Z.of_nat n))).
    { rewrite <- Z.pow_succ_r by lia. f_equal. lia. }
    rewrite P2. clear P2. revert F. induction F2 as [|t l codes ll (L & _) _ IH]; intros F; [reflexivity|].
    inversion F as [|? ? [V Lt] F']; subst. specialize (IH F'). unfold zlen in *.
    cbn [concat length]. rewrite map_length in *. rewrite app_length.
    rewrite Nat2Z.inj_add, L, IH, Nat2Z.inj_succ. lia. }
  rewrite Len. rewrite Z.leb_refl, Z.sub_diag. cbn [Z.to_nat repeat]. rewrite app_nil_r. split; [reflexivity|].
  clear Len. revert F. induction F2 as [|t l codes ll (L & Nd & Hin) _ IH]; intros F; [constructor|].
  inversion F as [|? ? [V Lt] F']; subst. cbn [map]. constructor; [|apply IH; assumption].
  split; [assumption|]. split; [unfold zlen in *; rewrite map_length; exact L|exact Hin].
Qed.
