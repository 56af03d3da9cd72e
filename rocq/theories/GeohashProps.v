(** Theorems about geohashes (properties C26 to C32 and C60). *)
From Verif Require Import Base BaseProofs GeohashModel GeohashSpec GeohashProofs GeohashProofs2 GeohashProofs3
  GeohashProofs4 GeohashProofs5 GeohashProofs6 GeohashProofs7 GeohashProofs8 GeohashModelFloat GeohashWhere.
From Verif Require Import MathModelFloat.
From Coq Require Import Ascii Sorting SpecFloat.
Open Scope Z_scope.

(** * C26 base32 text *)
(** Writing a code with [n] characters (at most 12) and reading it back. *)
Theorem C26_roundtrip : forall n h, (n <= 12)%nat -> is_code (5 * Z.of_nat n) h ->
  let t := b32_encode h n in
  length t = n /\ reads_as t 0 h /\ b32_validate t = true /\ b32_decode t = Ok (h, Z.of_nat n).
Proof.
  intros n h Hn Hc t. subst t. pose proof (b32_encode_valid n h) as V.
  assert (T : text_value (b32_encode h n) = h) by (rewrite text_value_encode; apply Z.mod_small; exact Hc).
  split; [apply b32_encode_length|]. split; [apply reads_as_value; split; [exact V|symmetry; exact T]|]. split.
  - revert V. generalize (b32_encode h n). induction l as [|c l IH]; intros V; [reflexivity|]. inversion V; subst.
    cbn [b32_validate]. rewrite valid_not_zero by assumption. rewrite H1. apply IH. assumption.
  - rewrite b32_decode_valid; [|exact V|rewrite b32_encode_length; exact Hn]. rewrite T. unfold zlen. rewrite b32_encode_length. reflexivity.
Qed.
Print Assumptions C26_roundtrip.

(** Any text of the alphabet reads as its value in base 32, and is what the encoder writes. *)
Theorem C26_decode : forall t v, (length t <= 12)%nat -> reads_as t 0 v ->
  b32_decode t = Ok (v, zlen t) /\ b32_encode v (length t) = t.
Proof.
  intros t v L R. apply reads_as_value in R. destruct R as [V ->]. split; [apply b32_decode_valid; assumption|].
  apply encode_text_value; exact V.
Qed.
Print Assumptions C26_decode.

(** A NUL character ends the text. *)
Theorem C26_nul : forall t v rest, (length t <= 12)%nat -> reads_as t 0 v ->
  b32_decode (t ++ zero :: rest) = Ok (v, zlen t) /\ b32_validate (t ++ zero :: rest) = true.
Proof.
  intros t v rest L R. destruct (C26_decode t v L R) as [D _]. apply reads_as_value in R. destruct R as [V _]. split.
  - rewrite <- D. unfold b32_decode. clear D L. revert V. generalize 0 at 1 3 as h. generalize 0 as n.
    induction t as [|c t IH]; intros n h V; [reflexivity|]. inversion V; subst. cbn [b32_decode_loop app].
    rewrite valid_not_zero, H1 by assumption. apply IH; assumption.
  - clear D L. induction t as [|c t IH]; [reflexivity|]. inversion V; subst. cbn [b32_validate app].
    rewrite valid_not_zero, H1 by assumption. apply IH; assumption.
Qed.
Print Assumptions C26_nul.

(** Anything else is refused. *)
Theorem C26_invalid : forall t v c rest, reads_as t 0 v -> c <> zero -> (forall d, ~ is_digit c d) ->
  (exists w, b32_decode (t ++ c :: rest) = Throw w) /\ b32_validate (t ++ c :: rest) = false.
Proof.
  intros t v c rest R Hz Hd. apply reads_as_value in R. destruct R as [V _].
  assert (Ez : Ascii.eqb c zero = false) by (apply Ascii.eqb_neq; exact Hz).
  assert (Ev : b32_validate_byte c = false).
  { destruct (b32_validate_byte c) eqn:E; [|reflexivity]. exfalso. apply (Hd (b32_table c)). apply digit_valid.
    destruct (valid_char c E) as [B _]. auto. }
  split.
  - exists "Invalid character in hash"%string. unfold b32_decode. revert V. generalize 0 at 1 as h. generalize 0 as n.
    induction t as [|x t IH]; intros n h V; cbn [app b32_decode_loop]; [rewrite Ez, Ev; reflexivity|].
    inversion V; subst. rewrite valid_not_zero, H1 by assumption. apply IH; assumption.
  - induction t as [|x t IH]; cbn [app b32_validate]; [rewrite Ez, Ev; reflexivity|].
    inversion V; subst. rewrite valid_not_zero, H1 by assumption. apply IH; assumption.
Qed.
Print Assumptions C26_invalid.

Example C26_ex : b32_encode 29 1 = list_ascii_of_string "x" /\
  b32_decode (list_ascii_of_string "ezs42") = Ok (14672002, 5) /\
  b32_decode (list_ascii_of_string "eA") = Throw "Invalid character in hash".
Proof. repeat split; reflexivity. Qed.

(** * C27 interleaving *)
Theorem C27_bijection :
  (forall x y, 0 <= x < 2 ^ 32 -> 0 <= y < 2 ^ 32 ->
     0 <= interleave x y < 2 ^ 64 /\ deinterleave (interleave x y) = (x, y)) /\
  (forall h, 0 <= h < 2 ^ 64 ->
     0 <= fst (deinterleave h) < 2 ^ 32 /\ 0 <= snd (deinterleave h) < 2 ^ 32 /\
     interleave (fst (deinterleave h)) (snd (deinterleave h)) = h).
Proof.
  split.
  - intros. split; [apply interleave_range; assumption|apply deinterleave_interleave; assumption].
  - intros h Hh. pose proof (interleave_deinterleave h Hh) as E. destruct (deinterleave h) as [x y] eqn:D.
    unfold deinterleave in D. cbn [fst snd].
    assert (Ex : squash h = x) by congruence. assert (Ey : squash (Z.shiftr h 1) = y) by congruence.
    split; [rewrite <- Ex; apply squash_range|]. split; [rewrite <- Ey; apply squash_range|exact E].
Qed.
Print Assumptions C27_bijection.

(** Bit for bit: even bits of the result are those of the first word, odd bits those of the second. *)
Theorem C27_bits : forall x y i, 0 <= x < 2 ^ 32 -> 0 <= y < 2 ^ 32 -> 0 <= i < 32 ->
  Z.testbit (interleave x y) (2 * i) = Z.testbit x i /\ Z.testbit (interleave x y) (2 * i + 1) = Z.testbit y i.
Proof.
  intros x y i Hx Hy Hi. rewrite !interleave_bits by lia.
  rewrite Z.even_mul. replace (2 * i <? 64) with true by lia. replace (2 * i + 1 <? 64) with true by lia.
  rewrite Z.even_add_mul_2 || idtac.
  replace (2 * i / 2) with i by (Z.div_mod_to_equations; lia). replace ((2 * i + 1) / 2) with i by (Z.div_mod_to_equations; lia).
  replace (Z.even (2 * i + 1)) with false by (rewrite Z.even_add, Z.even_mul; reflexivity). split; reflexivity.
Qed.
Print Assumptions C27_bits.

(** The processor-specific path computes the same words and the same codes. *)
Theorem C27_hardware :
  (forall h, deinterleaver true h = deinterleaver false h) /\
  (forall lat lon, in_closed earth lon lat -> encode_bmi2 lat lon = encode_portable lat lon).
Proof.
  split; [intro; apply deinterleave_bmi2_eq|]. intros lat lon H.
  pose proof (encoder_ok true (Point lon lat)) as E1. pose proof (encoder_ok false (Point lon lat)) as E2.
  unfold encoder in *. cbn [p_lon p_lat] in *. rewrite E1, E2; [reflexivity| |]; apply in_range_earth; exact H.
Qed.
Print Assumptions C27_hardware.

Example C27_ex : interleave 0xFFFFFFFF 0 = 0x5555555555555555 /\ deinterleave 0xAAAAAAAAAAAAAAAA = (0, 0xFFFFFFFF) /\
  encode_bmi2 (1 # 2) (-3) = encode_portable (1 # 2) (-3) /\ encode_bmi2 90 180 = Ok (2 ^ 64 - 1).
Proof. repeat split; reflexivity. Qed.

(** * C28 the cell contains the point *)
(** Every point of the Earth has a code; its cell contains the point; and no other code
    of this precision does, the cells being half-open. *)
Theorem C28_contains : forall bmi2 pt p, (1 <= p <= 64)%nat -> in_closed earth (p_lon pt) (p_lat pt) ->
  exists h, gh_encode bmi2 pt (Z.of_nat p) = Ok h /\ is_code (Z.of_nat p) h /\
    in_closed (cell_of p h) (p_lon pt) (p_lat pt) /\
    ((p_lon pt < 180)%Q -> (p_lat pt < 90)%Q ->
      forall g, is_code (Z.of_nat p) g -> (in_half_open (cell_of p g) (p_lon pt) (p_lat pt) <-> g = h)).
Proof.
  intros bmi2 pt p Hp He. apply in_range_earth in He. destruct (gh_encode_ok bmi2 pt p He Hp) as (h & E & C & _).
  exists h. destruct (encode_contains bmi2 pt p h He Hp E) as (_ & I & O). split; [exact E|]. split; [exact C|]. split; [exact I|].
  intros Hlo Hla g Hg. split.
  - intro Ig. eapply cell_unique; [exact Hg|exact C|exact Ig|apply O; assumption].
  - intros ->. apply O; assumption.
Qed.
Print Assumptions C28_contains.

(** The bounding box returned for a code is its cell, and the box of the code of a point
    contains the point: up to 62 bits, and at 63 or 64 bits away from the eastern and
    northern borders. *)
Theorem C28_box_partial : forall bmi2 p h, (1 <= p <= 64)%nat ->
  (p <= 62)%nat \/ ((east (cell_of p h) < 180)%Q /\ (north (cell_of p h) < 90)%Q) ->
  (exists b, bounding_box bmi2 h (Z.of_nat p) = Ok b /\ same_cell (cell_of_box b) (cell_of p h)) /\
  forall pt, in_closed earth (p_lon pt) (p_lat pt) -> gh_encode bmi2 pt (Z.of_nat p) = Ok h ->
    exists b, bounding_box bmi2 h (Z.of_nat p) = Ok b /\ in_closed (cell_of_box b) (p_lon pt) (p_lat pt).
Proof.
  intros bmi2 p h Hp Ht. destruct (no_top_ok p h Ht) as [A B].
  destruct (box_cell_of bmi2 p h Hp A B) as (b & E & S). split; [exists b; auto|].
  intros pt He Hh. exists b. split; [exact E|]. apply in_range_earth in He.
  destruct (encode_contains bmi2 pt p h He Hp Hh) as (_ & I & _).
  destruct S as (S1 & S2 & S3 & S4). unfold in_closed in *. rewrite S1, S2, S3, S4. exact I.
Qed.
Print Assumptions C28_box_partial.

(** At 63 and 64 bits the box of any code of the last column is refused. *)
Theorem C28_box_refuted : forall bmi2 pt p h, p = 63%nat \/ p = 64%nat ->
  in_closed earth (p_lon pt) (p_lat pt) -> (180 - 360 / inject_Z (2 ^ 32) <= p_lon pt)%Q ->
  gh_encode bmi2 pt (Z.of_nat p) = Ok h -> exists w, bounding_box bmi2 h (Z.of_nat p) = Throw w.
Proof.
  intros bmi2 pt p h Hp He Hl E. assert (1 <= p <= 64)%nat by lia. apply in_range_earth in He.
  apply bounding_box_last_col; [assumption|]. destruct (gh_encode_ok bmi2 pt p He ltac:(assumption)) as (h' & E' & _ & L & _).
  assert (h' = h) by congruence. subst h'. unfold last_col. rewrite Nat2Z.id, L.
  assert (B : lonb (Z.of_nat p) = 32) by (destruct Hp; subst; reflexivity). rewrite B. split; [reflexivity|].
  destruct (Qlt_le_dec (p_lon pt) 180) as [Hlt|Hge].
  - apply qidx_unique; [reflexivity|lia| | |lia].
    + eapply Qle_trans; [|exact Hl]. vm_compute. discriminate.
    + replace (2 ^ 32 - 1 + 1) with (2 ^ 32) by lia. pose proof (edge_max 180 32 ltac:(lia)). lra.
  - unfold qidx. apply Qle_bool_iff in Hge. rewrite Hge. reflexivity.
Qed.
Print Assumptions C28_box_refuted.

(** The full statement therefore fails. *)
Theorem C28_full_refuted : ~ (forall bmi2 pt p h, (1 <= p <= 64)%nat -> in_closed earth (p_lon pt) (p_lat pt) ->
  gh_encode bmi2 pt (Z.of_nat p) = Ok h ->
  exists b, bounding_box bmi2 h (Z.of_nat p) = Ok b /\ in_closed (cell_of_box b) (p_lon pt) (p_lat pt)).
Proof.
  intro F. destruct (F false (Point 180 0) 64%nat (2 ^ 64 - 1 - 0x1555555555555555) ltac:(lia)) as (b & E & _).
  - unfold in_closed, earth; cbn; lra.
  - reflexivity.
  - vm_compute in E. discriminate.
Qed.

(** Rounding of the actual arithmetic: the largest binary64 number below 90 is sent out
    of the range of [uint32_t] by the portable encoder, and to the row of the south pole
    by the processor-specific one. *)
Theorem C28_binary64_refuted :
  SFltb b64_below_90 (b64_of_Z 90) = true /\
  (exists w, b64_encode_range b64_below_90 (b64_of_Z 90) = UB w) /\
  b64_encode_lat_bmi2 b64_below_90 = 0.
Proof. split; [reflexivity|]. split; [eexists; vm_compute; reflexivity|vm_compute; reflexivity]. Qed.
Print Assumptions C28_binary64_refuted.

Example C28_ex : exists h b, gh_encode true (Point (-56 # 10) (426 # 10)) 25 = Ok h /\
  b32_encode h 5 = list_ascii_of_string "ezs42" /\ bounding_box true h 25 = Ok b /\
  (p_lon (min_corner b) == -(45 # 8) /\ p_lon (max_corner b) == -(55810546875 # 10000000000))%Q.
Proof. eexists. eexists. split; [vm_compute; reflexivity|]. split; [reflexivity|]. split; [vm_compute; reflexivity|]. vm_compute. split; reflexivity. Qed.

(** * C29 prefixes *)
Theorem C29_prefix : forall bmi2 pt p q, (1 <= p)%nat -> (p <= q)%nat -> (q <= 64)%nat ->
  in_closed earth (p_lon pt) (p_lat pt) ->
  exists h g, gh_encode bmi2 pt (Z.of_nat q) = Ok h /\ gh_encode bmi2 pt (Z.of_nat p) = Ok g /\
    g = h / 2 ^ (Z.of_nat q - Z.of_nat p) /\ sub_cell (cell_of q h) (cell_of p g).
Proof.
  intros bmi2 pt p q Hp Hpq Hq He. apply in_range_earth in He.
  destruct (gh_encode_ok bmi2 pt q He ltac:(lia)) as (h & E & _).
  exists h, (h / 2 ^ (Z.of_nat q - Z.of_nat p)). split; [exact E|].
  pose proof (gh_encode_prefix bmi2 pt p q h Hp Hpq Hq E) as P. rewrite Z.shiftr_div_pow2 in P by lia.
  split; [exact P|]. split; [reflexivity|].
  pose proof (cell_of_ancestor (q - p) p h) as A. replace (p + (q - p))%nat with q in A by lia.
  rewrite Z.shiftr_div_pow2, Nat2Z.inj_sub in A by lia. exact A.
Qed.
Print Assumptions C29_prefix.

(** In text form: the code with [n] characters is made of the first [n] characters of
    the longer one. *)
Theorem C29_text_prefix : forall bmi2 pt n m, (1 <= n)%nat -> (n <= m)%nat -> (m <= 12)%nat ->
  in_closed earth (p_lon pt) (p_lat pt) ->
  exists t, str_encode bmi2 pt (Z.of_nat m) = Ok t /\ length t = m /\ str_encode bmi2 pt (Z.of_nat n) = Ok (firstn n t).
Proof.
  intros bmi2 pt n m Hn Hnm Hm He.
  destruct (C29_prefix bmi2 pt (5 * n) (5 * m) ltac:(lia) ltac:(lia) ltac:(lia) He) as (h & g & Eh & Eg & Hg & _).
  exists (b32_encode h m). split; [apply str_encode_ok; [lia|exact Eh]|]. split; [apply b32_encode_length|].
  rewrite (str_encode_ok bmi2 pt n g) by (lia || exact Eg). f_equal.
  replace m with (n + (m - n))%nat by lia. rewrite b32_encode_prefix, Z.shiftr_div_pow2 by lia.
  rewrite Hg. f_equal. f_equal. f_equal. lia.
Qed.
Print Assumptions C29_text_prefix.

(** A code read by somebody: [n] characters of the alphabet. *)
Definition code_text (n : nat) (t : list ascii) : Prop := length t = n /\ exists v, reads_as t 0 v.
Lemma code_text_valid : forall n t, code_text n t <-> valid_text t /\ length t = n.
Proof.
  intros n t. unfold code_text. split.
  - intros [L [v R]]. apply reads_as_value in R. tauto.
  - intros [V L]. split; [exact L|]. exists (text_value t). apply reads_as_value. split; [exact V|reflexivity].
Qed.

(** Changing the precision of a list of codes.  Going coarser gives the distinct prefixes
    in increasing order; the same precision gives the list itself; going finer gives, for
    each code in turn, the codes that it is a prefix of, each one once. *)
Theorem C29_transform_coarser : forall bmi2 codes n m, (1 <= n)%nat -> (n < m)%nat -> (m <= 12)%nat ->
  Forall (code_text m) codes ->
  exists l, transform bmi2 codes (Z.of_nat m) (Z.of_nat n) = Ok l /\ StronglySorted code_lt l /\ NoDup l /\
    forall x, In x l <-> exists t, In t codes /\ x = firstn n t.
Proof.
  intros bmi2 codes n m Hn Hnm Hm F. unfold transform.
  replace (Z.of_nat m =? Z.of_nat n) with false by lia. replace (Z.of_nat n <? Z.of_nat m) with true by lia.
  destruct (zoom_out_ok bmi2 codes n m Hn ltac:(lia) Hm) as (l & E & S & I).
  { eapply Forall_impl; [|exact F]. intros t H. apply code_text_valid in H. exact H. }
  exists l. split; [exact E|]. split; [exact S|]. split; [|exact I].
  eapply StronglySorted_NoDup; [|exact S]. intros x Hx. unfold code_lt in Hx.
  rewrite (proj2 (code_cmp_eq x x) eq_refl) in Hx. discriminate.
Qed.
Print Assumptions C29_transform_coarser.

Theorem C29_transform_same : forall bmi2 codes n, transform bmi2 codes n n = Ok codes.
Proof. intros. unfold transform. rewrite Z.eqb_refl. reflexivity. Qed.
Print Assumptions C29_transform_same.

Theorem C29_transform_finer : forall bmi2 codes n m, (1 <= n)%nat -> (n < m)%nat -> (m <= 12)%nat ->
  Forall (code_text n) codes ->
  exists ll, transform bmi2 codes (Z.of_nat n) (Z.of_nat m) = Ok (concat ll) /\
    Forall2 (fun t l => NoDup l /\ zlen l = 32 ^ (Z.of_nat m - Z.of_nat n) /\
       forall x, In x l <-> code_text m x /\ firstn n x = t) codes ll.
Proof.
  intros bmi2 codes n m Hn Hnm Hm F. unfold transform.
  replace (Z.of_nat n =? Z.of_nat m) with false by lia. replace (Z.of_nat m <? Z.of_nat n) with false by lia.
  destruct (zoom_in_ok bmi2 codes n m Hn Hnm Hm) as (ll & E & F2).
  { eapply Forall_impl; [|exact F]. intros t H. apply code_text_valid in H. exact H. }
  exists ll. split; [exact E|]. eapply Forall2_impl; [|exact F2]. intros t l _ (N & L & I). split; [exact N|]. split.
  - rewrite L. rewrite (Z.pow_mul_r 2 5) by lia. reflexivity.
  - intro x. rewrite I, code_text_valid. tauto.
Qed.
Print Assumptions C29_transform_finer.

Example C29_ex :
  str_encode false (Point (-56 # 10) (426 # 10)) 5 = Ok (list_ascii_of_string "ezs42") /\
  str_encode false (Point (-56 # 10) (426 # 10)) 3 = Ok (list_ascii_of_string "ezs") /\
  transform true (map list_ascii_of_string ["u33d"; "ezs4"; "ezsm"]%string) 4 3 =
    Ok (map list_ascii_of_string ["ezs"; "u33"]%string).
Proof. repeat split; vm_compute; reflexivity. Qed.

(** * C30 decoding *)
(** [decode] gives the centre of the cell (or, on request, a rounded position inside the
    cell) and encoding this position gives the code back. *)
Theorem C30_decode_partial : forall bmi2 bmi2' p h round, (1 <= p <= 64)%nat -> is_code (Z.of_nat p) h ->
  (p <= 62)%nat \/ ((east (cell_of p h) < 180)%Q /\ (north (cell_of p h) < 90)%Q) ->
  exists pt, gh_decode bmi2 h (Z.of_nat p) round = Ok pt /\
    in_half_open (cell_of p h) (p_lon pt) (p_lat pt) /\
    (round = false -> (p_lon pt == (west (cell_of p h) + east (cell_of p h)) / 2 /\
                       p_lat pt == (south (cell_of p h) + north (cell_of p h)) / 2)%Q) /\
    gh_encode bmi2' pt (Z.of_nat p) = Ok h.
Proof.
  intros bmi2 bmi2' p h round Hp Hc Ht. destruct (no_top_ok p h Ht) as [A B].
  destruct (decode_encode bmi2 p h round Hp Hc A B) as (pt & E & I & M & R). exists pt. auto.
Qed.
Print Assumptions C30_decode_partial.

(** The position returned for the code of a point is within half of the advertised error
    ([error_with_precision], the size of a cell) of this point. *)
Theorem C30_error : forall bmi2 pt p h q, (1 <= p <= 62)%nat -> in_closed earth (p_lon pt) (p_lat pt) ->
  gh_encode bmi2 pt (Z.of_nat p) = Ok h -> gh_decode bmi2 h (Z.of_nat p) false = Ok q ->
  (Qabs (p_lon q - p_lon pt) <= fst (error_with_precision (Z.of_nat p)) / 2 /\
   Qabs (p_lat q - p_lat pt) <= snd (error_with_precision (Z.of_nat p)) / 2)%Q.
Proof.
  intros bmi2 pt p h q Hp He E D. apply in_range_earth in He.
  destruct (encode_contains bmi2 pt p h He ltac:(lia) E) as (C & I & _).
  destruct (C30_decode_partial bmi2 bmi2 p h false ltac:(lia) C ltac:(left; lia)) as (q' & D' & _ & M & _).
  assert (q' = q) by congruence. subst q'. destruct (M eq_refl) as [Mo Ma].
  destruct (errors_eq p ltac:(lia)) as [Eo Ea]. destruct (cell_size p h) as [So Sa].
  rewrite Eo, Ea, <- So, <- Sa, Mo, Ma. destruct I as (I1 & I2 & I3 & I4).
  revert I1 I2 I3 I4. generalize (west (cell_of p h)), (east (cell_of p h)), (south (cell_of p h)), (north (cell_of p h)), (p_lon pt), (p_lat pt).
  intros. unfold Qdiv. change (/ 2)%Q with (1 # 2)%Q. split; apply Qabs_Qle_condition; split; lra.
Qed.
Print Assumptions C30_error.

(** At 64 bits there are codes of points of the Earth that cannot be decoded. *)
Theorem C30_full_refuted : exists pt h, in_closed earth (p_lon pt) (p_lat pt) /\
  gh_encode true pt 64 = Ok h /\ exists w, gh_decode true h 64 false = Throw w.
Proof.
  exists (Point 180 0), (2 ^ 64 - 1 - 0x1555555555555555). split; [unfold in_closed, earth; cbn; lra|]. split; [reflexivity|].
  eexists. vm_compute. reflexivity.
Qed.

Example C30_ex : exists pt, gh_decode true 14672002 25 false = Ok pt /\ gh_encode false pt 25 = Ok 14672002 /\
  exists rd, gh_decode true 14672002 25 true = Ok rd /\ (p_lon rd == -(562 # 100))%Q /\ (p_lat rd == 4259 # 100)%Q /\
    gh_encode false rd 25 = Ok 14672002.
Proof.
  eexists. split; [vm_compute; reflexivity|]. split; [vm_compute; reflexivity|].
  eexists. split; [vm_compute; reflexivity|]. repeat split; vm_compute; reflexivity.
Qed.

(** * C31 neighbours *)
(** Inside the map: the eight adjacent cells, in the order of [compass], on both paths. *)
Theorem C31_interior : forall bmi2 p h, (1 <= p <= 62)%nat -> is_code (Z.of_nat p) h ->
  (-180 < west (cell_of p h) /\ east (cell_of p h) < 180 /\
   -90 < south (cell_of p h) /\ north (cell_of p h) < 90)%Q ->
  exists l, gh_neighbors bmi2 h (Z.of_nat p) = Ok l /\
    Forall2 (fun d g => is_code (Z.of_nat p) g /\ shifted (cell_of p h) (cell_of p g) (fst d) (snd d)) compass l.
Proof.
  intros bmi2 p h Hp Hc (B1 & B2 & B3 & B4). apply neighbors_interior; [exact Hp|].
  apply first_col_west in B1. apply last_col_east in B2. apply first_row_south in B3. apply last_row_north in B4.
  unfold interior. lia.
Qed.
Print Assumptions C31_interior.

(** Processor-specific path: every row but the two polar ones, longitudes modulo 360. *)
Theorem C31_wrap_partial : forall p h, (1 <= p <= 62)%nat -> is_code (Z.of_nat p) h ->
  (-90 < south (cell_of p h) /\ north (cell_of p h) < 90)%Q ->
  exists l, gh_neighbors true h (Z.of_nat p) = Ok l /\
    Forall2 (fun d g => is_code (Z.of_nat p) g /\ shifted_wrap (cell_of p h) (cell_of p g) (fst d) (snd d)) compass l.
Proof.
  intros p h Hp Hc (B3 & B4). apply first_row_south in B3. apply last_row_north in B4.
  destruct (neighbors_bmi2 p h Hp) as (l & E & F). exists l. split; [exact E|].
  pose proof compass_in as CI. rewrite Forall_forall in CI.
  eapply Forall2_impl; [|exact F]. intros d g Hd (G & Eo & Ea). split; [exact G|].
  destruct (CI d Hd) as [Hi Hj]. apply wrap_of_idx; try assumption; lia.
Qed.
Print Assumptions C31_wrap_partial.

(** The portable path does not wrap: the eastern neighbour of a cell of the last column is
    the cell itself ... *)
Theorem C31_portable_east_refuted : forall p h, (1 <= p <= 62)%nat -> is_code (Z.of_nat p) h ->
  (-180 < west (cell_of p h))%Q -> (east (cell_of p h) == 180)%Q ->
  (-90 < south (cell_of p h) /\ north (cell_of p h) < 90)%Q ->
  exists l, gh_neighbors false h (Z.of_nat p) = Ok l /\ nth_error l 2 = Some h.
Proof.
  intros p h Hp Hc B1 B2 [B3 B4]. apply first_col_west in B1. apply first_row_south in B3. apply last_row_north in B4.
  destruct (neighbors_portable p h Hp B1 B3) as (l & E & F). exists l. split; [exact E|].
  unfold compass in F. inversion F as [|d1 g1 l1 m1 _ F1]; subst. inversion F1 as [|d2 g2 l2 m2 _ F2]; subst.
  inversion F2 as [|d3 g3 l3 m3 (G & Eo & Ea) _]; subst. cbn [nth_error]. f_equal.
  cbn [fst snd] in *. destruct (cell_of_edges p h) as (_ & X & _ & _). cbn [east] in X.
  pose proof (bits_nonneg p) as B. pose proof (lonx_range p h).
  assert (lonx p h + 1 = 2 ^ lonb (Z.of_nat p)).
  { apply (edge_eq_inj 180 (lonb (Z.of_nat p))); [reflexivity|lia|]. rewrite <- X, B2. symmetry. apply edge_max. lia. }
  apply (idx_inj p); try assumption; lia.
Qed.
Print Assumptions C31_portable_east_refuted.

(** ... and asking for the neighbours of a cell of the first column (a single-precision
    example: the code 0) converts a negative number to an unsigned integer. *)
Theorem C31_portable_west_refuted : exists w, gh_neighbors false 0 25 = UB w.
Proof. eexists. vm_compute. reflexivity. Qed.

(** On the processor-specific path the northern neighbour of a cell at the north pole is a
    cell at the south pole. *)
Theorem C31_pole_refuted : forall p h, (1 <= p <= 62)%nat -> is_code (Z.of_nat p) h ->
  (north (cell_of p h) == 90)%Q ->
  exists g l, gh_neighbors true h (Z.of_nat p) = Ok (g :: l) /\ (south (cell_of p g) == -90)%Q.
Proof.
  intros p h Hp Hc B4. destruct (neighbors_bmi2 p h Hp) as (l & E & F).
  unfold compass in F. inversion F as [|d g l1 m1 (G & Eo & Ea) _]; subst. exists g, m1. split; [exact E|]. cbn [fst snd] in *.
  pose proof (bits_nonneg p) as B. destruct (cell_of_edges p h) as (_ & _ & _ & X). cbn [north] in X.
  assert (L : latx p h + 1 = 2 ^ latb (Z.of_nat p)).
  { apply (edge_eq_inj 90 (latb (Z.of_nat p))); [reflexivity|lia|]. rewrite <- X, B4. symmetry. apply edge_max. lia. }
  rewrite L, Z.mod_same in Ea by (apply Z.pow_nonzero; lia).
  destruct (cell_of_edges p g) as (_ & _ & Y & _). cbn [south] in Y. rewrite Y, Ea. apply edge_0.
Qed.
Print Assumptions C31_pole_refuted.
Example C31_pole_ex : exists h, gh_encode true (Point 10 90) 25 = Ok h /\ (north (cell_of 25 h) == 90)%Q.
Proof. eexists. split; [vm_compute; reflexivity|]. vm_compute; reflexivity. Qed.

Example C31_ex : gh_neighbors true 14672002 25 = gh_neighbors false 14672002 25 /\
  exists l, str_neighbors true (list_ascii_of_string "ezs42") = Ok l /\
    l = map list_ascii_of_string ["ezs48"; "ezs49"; "ezs43"; "ezs41"; "ezs40"; "ezefp"; "ezefr"; "ezefx"]%string.
Proof. split; [vm_compute; reflexivity|]. eexists. split; [vm_compute; reflexivity|]. vm_compute; reflexivity. Qed.

(** * C32 enumeration of a box *)
Lemma wf_box_earth : forall b, wf_box b <->
  box_on_earth (p_lon (min_corner b)) (p_lon (max_corner b)) (p_lat (min_corner b)) (p_lat (max_corner b)).
Proof. intros. unfold wf_box, in_range, box_on_earth. split; intros; repeat split; try tauto; lra. Qed.

(** The cells are listed row by row from the south-west corner, each one once. *)
Theorem C32_order : forall bmi2 b p, (1 <= p <= 62)%nat ->
  box_on_earth (p_lon (min_corner b)) (p_lon (max_corner b)) (p_lat (min_corner b)) (p_lat (max_corner b)) ->
  exists l, bounding_boxes bmi2 b (Z.of_nat p) = Ok l /\ NoDup l /\
    StronglySorted (fun h g => before_in_rows (cell_of p h) (cell_of p g)) l.
Proof.
  intros bmi2 b p Hp Hb. apply wf_box_earth in Hb. destruct (bounding_boxes_sorted bmi2 b p Hp Hb) as (l & E & S).
  exists l. split; [exact E|]. split; [|exact S]. eapply StronglySorted_NoDup; [apply row_major_irrefl|exact S].
Qed.
Print Assumptions C32_order.

Lemma one_cell_iff : forall bmi2 b p, (1 <= p <= 62)%nat -> wf_box b ->
  (one_cell b p <-> gh_encode bmi2 (min_corner b) (Z.of_nat p) = gh_encode bmi2 (max_corner b) (Z.of_nat p)).
Proof.
  intros bmi2 b p Hp (W1 & W2 & _ & _). pose proof (bits_nonneg p) as B. rewrite !gh_encode_code_at by (assumption || lia). split.
  - intros [A C]. rewrite A, C. reflexivity.
  - intro E. assert (E' := E). remember (code_at p (qidx (p_lon (min_corner b)) 180 (lonb (Z.of_nat p))) (qidx (p_lat (min_corner b)) 90 (latb (Z.of_nat p)))) as x eqn:X.
    remember (code_at p (qidx (p_lon (max_corner b)) 180 (lonb (Z.of_nat p))) (qidx (p_lat (max_corner b)) 90 (latb (Z.of_nat p)))) as y eqn:Y.
    assert (x = y) by congruence.
    destruct W1 as (a1 & a2 & a3 & a4), W2 as (b1 & b2 & b3 & b4).
    destruct (code_at_ok p (qidx (p_lon (min_corner b)) 180 (lonb (Z.of_nat p))) (qidx (p_lat (min_corner b)) 90 (latb (Z.of_nat p)))) as (_ & X1 & X2);
      [apply qidx_range; (reflexivity || assumption || lia)|apply qidx_range; (reflexivity || assumption || lia)|].
    destruct (code_at_ok p (qidx (p_lon (max_corner b)) 180 (lonb (Z.of_nat p))) (qidx (p_lat (max_corner b)) 90 (latb (Z.of_nat p)))) as (_ & Y1 & Y2);
      [apply qidx_range; (reflexivity || assumption || lia)|apply qidx_range; (reflexivity || assumption || lia)|].
    rewrite <- X in X1, X2. rewrite <- Y in Y1, Y2. unfold one_cell. split; congruence.
Qed.

(** What is listed.  Both corners in one cell: this cell.  Otherwise exactly the cells whose
    eastern edge is in ]west, east] and northern edge in ]south, north] of the box: the
    cells crossed by its eastern or northern side are left out, unless this side is the
    border of the map. *)
Theorem C32_content : forall bmi2 b p l, (1 <= p <= 62)%nat ->
  box_on_earth (p_lon (min_corner b)) (p_lon (max_corner b)) (p_lat (min_corner b)) (p_lat (max_corner b)) ->
  (p_lon (min_corner b) < 180)%Q -> (p_lat (min_corner b) < 90)%Q ->
  bounding_boxes bmi2 b (Z.of_nat p) = Ok l ->
  (gh_encode bmi2 (min_corner b) (Z.of_nat p) = gh_encode bmi2 (max_corner b) (Z.of_nat p) ->
     exists h, gh_encode bmi2 (min_corner b) (Z.of_nat p) = Ok h /\ l = [h]) /\
  (gh_encode bmi2 (min_corner b) (Z.of_nat p) <> gh_encode bmi2 (max_corner b) (Z.of_nat p) ->
     forall h, In h l <-> is_code (Z.of_nat p) h /\
       (p_lon (min_corner b) < east (cell_of p h) /\ east (cell_of p h) <= p_lon (max_corner b) /\
        p_lat (min_corner b) < north (cell_of p h) /\ north (cell_of p h) <= p_lat (max_corner b))%Q).
Proof.
  intros bmi2 b p l Hp Hb Hlo Hla E. apply wf_box_earth in Hb. pose proof (one_cell_iff bmi2 b p Hp Hb) as OC. split.
  - intro Eq. apply OC in Eq. destruct (bounding_boxes_block bmi2 b p Hp Hb) as [[_ E2]|[N _]]; [|contradiction].
    exists (sw_code b p). split; [|congruence]. unfold sw_code. apply gh_encode_code_at; [destruct Hb; assumption|lia].
  - intros Ne h. rewrite (bounding_boxes_content bmi2 b p l Hp Hb Hlo Hla E) by tauto. tauto.
Qed.
Print Assumptions C32_content.

(** Hence the list covers the box exactly when it is made of whole cells. *)
Theorem C32_cover_partial : forall bmi2 b p l lon lat, (1 <= p <= 62)%nat ->
  box_on_earth (p_lon (min_corner b)) (p_lon (max_corner b)) (p_lat (min_corner b)) (p_lat (max_corner b)) ->
  bounding_boxes bmi2 b (Z.of_nat p) = Ok l ->
  (exists h, is_code (Z.of_nat p) h /\ (east (cell_of p h) == p_lon (max_corner b) /\ north (cell_of p h) == p_lat (max_corner b))%Q) ->
  gh_encode bmi2 (min_corner b) (Z.of_nat p) <> gh_encode bmi2 (max_corner b) (Z.of_nat p) ->
  (p_lon (min_corner b) <= lon /\ lon < p_lon (max_corner b) /\ p_lat (min_corner b) <= lat /\ lat < p_lat (max_corner b))%Q ->
  exists h, In h l /\ in_half_open (cell_of p h) lon lat.
Proof.
  intros bmi2 b p l lon lat Hp Hb E (c & Hc & Ce & Cn) Ne (L1 & L2 & L3 & L4).
  destruct Hb as (B1 & B2 & B3 & B4 & B5 & B6).
  assert (He : in_closed earth lon lat) by (unfold in_closed, earth; cbn [west east south north]; repeat split; lra).
  destruct (C28_contains bmi2 (Point lon lat) p ltac:(lia) He) as (h & Eh & Ch & _ & U). cbn [p_lon p_lat] in *.
  assert (I : in_half_open (cell_of p h) lon lat) by (apply U; [lra|lra|assumption|reflexivity]).
  exists h. split; [|exact I].
  destruct (C32_content bmi2 b p l Hp ltac:(repeat split; assumption) ltac:(lra) ltac:(lra) E) as [_ Cont].
  apply (Cont Ne). split; [exact Ch|]. destruct I as (I1 & I2 & I3 & I4).
  pose proof (bits_nonneg p) as B.
  destruct (cell_of_edges p h) as (X1 & X2 & X3 & X4). destruct (cell_of_edges p c) as (Y1 & Y2 & Y3 & Y4). cbn [west east south north] in *.
  assert (east (cell_of p h) <= p_lon (max_corner b))%Q.
  { rewrite <- Ce, X2, Y2. apply edge_mono; [reflexivity|lia|].
    assert (lonx p h < lonx p c + 1); [|lia]. apply (edge_lt_iff 180 (lonb (Z.of_nat p))); [reflexivity|lia|]. rewrite <- X1, <- Y2. lra. }
  assert (north (cell_of p h) <= p_lat (max_corner b))%Q.
  { rewrite <- Cn, X4, Y4. apply edge_mono; [reflexivity|lia|].
    assert (latx p h < latx p c + 1); [|lia]. apply (edge_lt_iff 90 (latb (Z.of_nat p))); [reflexivity|lia|]. rewrite <- X3, <- Y4. lra. }
  repeat split; lra.
Qed.
Print Assumptions C32_cover_partial.

(** Otherwise cells that meet the box may be missing: a box one cell wide and two rows
    high gives no cell at all. *)
Theorem C32_cover_refuted : bounding_boxes true (Box (Point 1 1) (Point 2 50)) 5 = Ok [].
Proof. vm_compute. reflexivity. Qed.

Example C32_ex : str_bounding_boxes false (Box (Point 0 0) (Point 90 90)) 1
  = Ok (map list_ascii_of_string ["s"; "t"; "u"; "v"]%string).
Proof. vm_compute. reflexivity. Qed.

(** * C60 where *)
(** The result has one entry for each code of the matrix, and no other. *)
Theorem C60_keys : forall m rows cols c,
  find_code c (where_ m rows cols) <> None <-> exists i j, 0 <= i < rows /\ 0 <= j < cols /\ m i j = c.
Proof. exact where_keys. Qed.
Print Assumptions C60_keys.

(** It never goes outside of the rows and columns where the code is present. *)
Theorem C60_inside : forall m rows cols c s r0 r1 c0 c1,
  (forall i j, 0 <= i < rows -> 0 <= j < cols -> m i j = c -> r0 <= i <= r1 /\ c0 <= j <= c1) ->
  find_code c (where_ m rows cols) = Some s ->
  r0 <= row0 s /\ row1 s <= r1 /\ c0 <= col0 s /\ col1 s <= c1.
Proof.
  intros m rows cols c s r0 r1 c0 c1 H F.
  pose proof (where_sound m rows cols c (Span r0 r1 c0 c1) s H F) as S. unfold span_le in S. cbn in S. lia.
Qed.
Print Assumptions C60_inside.

(** When the code fills a rectangle of at least three cells (what the matrix of the cells
    of a box looks like) the entry is this rectangle. *)
Theorem C60_rectangle_partial : forall m rows cols c r0 r1 c0 c1,
  0 <= r0 <= r1 -> r1 < rows -> 0 <= c0 <= c1 -> c1 < cols ->
  (forall i j, 0 <= i < rows -> 0 <= j < cols -> (m i j = c <-> r0 <= i <= r1 /\ c0 <= j <= c1)) ->
  (r1 - r0 + 1) * (c1 - c0 + 1) <> 2 ->
  find_code c (where_ m rows cols) = Some (Span r0 r1 c0 c1).
Proof.
  intros m rows cols c r0 r1 c0 c1 H1 H2 H3 H4 H5 H6.
  assert (F : fills m rows cols c (Span r0 r1 c0 c1)) by (unfold fills, inside; cbn [row0 row1 col0 col1]; auto).
  destruct (Z_lt_ge_dec ((r1 - r0 + 1) * (c1 - c0 + 1)) 3) as [L|G]; [|apply where_rectangle; assumption].
  assert (r1 = r0 /\ c1 = c0) as [-> ->] by nia.
  destruct (find_code c (where_ m rows cols)) as [s|] eqn:E.
  - pose proof (C60_inside m rows cols c s r0 r0 c0 c0 ltac:(intros; apply H5; assumption) E).
    assert (B : row0 s <= row1 s /\ col0 s <= col1 s).
    { unfold where_ in E. rewrite where_track in E. cbn [find_code] in E.
      destruct (first_split m rows cols c _ F) as (l2 & E2 & _). unfold where_ in E2. rewrite where_track in E2. cbn [find_code] in E2.
      rewrite E in E2. cbn [row0 col0] in E2.
      destruct (track_grows m rows cols c l2 (Span r0 r0 c0 c0)) as (t & Et & Lt). rewrite Et in E2.
      assert (s = t) by congruence. subst t. unfold span_le in Lt. cbn in Lt. lia. }
    destruct s as [a b d e]. cbn in *. assert (a = r0 /\ b = r0 /\ d = c0 /\ e = c0) as (-> & -> & -> & ->) by lia. reflexivity.
  - exfalso. apply (where_keys m rows cols c); [|exact E]. exists r0, c0. split; [lia|]. split; [lia|]. apply H5; lia.
Qed.
Print Assumptions C60_rectangle_partial.

(** With two cells the second one is forgotten. *)
Theorem C60_two_cells_refuted : forall c : code,
  find_code c (where_ (fun _ _ => c) 1 2) = Some (Span 0 0 0 0).
Proof.
  intro c. unfold where_. rewrite where_track. change (scan 1 2) with [(0, 0); (0, 1)]. cbn [fold_left find_code].
  unfold track. cbn [fst snd]. rewrite code_eqb_refl. unfold visit_neighbours, shifts. cbn -[code_eqb].
  rewrite ?code_eqb_refl. reflexivity.
Qed.

Example C60_ex : let m := fun i j : Z => if (j <? 2) then list_ascii_of_string "e" else list_ascii_of_string "s" in
  where_ m 2 4 = [(list_ascii_of_string "e", Span 0 1 0 1); (list_ascii_of_string "s", Span 0 1 2 3)].
Proof. vm_compute. reflexivity. Qed.
