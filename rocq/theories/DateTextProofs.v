(** Proofs about the texts of dates. *)
From Coq Require Import Ascii.
From Verif Require Import Base DateModel DateSpec DateProofs DateProofs2 PyPeriodModel PyPeriodSpec PyPeriodProofs DateTextModel DateTextSpec.
Open Scope string_scope.
Open Scope Z_scope.
Ltac Zify.zify_post_hook ::= idtac.

(** ** Strings *)
Lemma sapp_assoc a b c : (a ++ b) ++ c = a ++ (b ++ c).
Proof. induction a as [|x a IH]; cbn; [reflexivity|rewrite IH; reflexivity]. Qed.
Lemma sapp_length a b : String.length (a ++ b) = (String.length a + String.length b)%nat.
Proof. induction a as [|x a IH]; cbn; [reflexivity|rewrite IH; reflexivity]. Qed.
Lemma sapp_nil a : a ++ "" = a.
Proof. induction a as [|x a IH]; cbn; [reflexivity|rewrite IH; reflexivity]. Qed.
Lemma sapp_inj_len : forall a b c d, String.length a = String.length c -> a ++ b = c ++ d -> a = c /\ b = d.
Proof.
  induction a as [|x a IH]; intros b [|y c] d L E; try discriminate L; [split; [reflexivity|exact E]|].
  cbn in L, E. injection E as -> E. injection L as L. destruct (IH b c d L E) as [-> ->]. split; reflexivity.
Qed.
Lemma sapp_inj_right a b c d : String.length b = String.length d -> a ++ b = c ++ d -> a = c /\ b = d.
Proof.
  intros L E. apply sapp_inj_len; [|exact E]. assert (H := f_equal String.length E). rewrite !sapp_length in H. lia.
Qed.
Lemma zeros_length n : String.length (zeros n) = n.
Proof. induction n; cbn; congruence. Qed.

(** ** Reading what is written *)
Lemma read_app a s t : read_from a (s ++ t) = match read_from a s with Some b => read_from b t | None => None end.
Proof. revert a. induction s as [|c s IH]; intro a; [reflexivity|]. cbn. destruct (digit_value c); [apply IH|reflexivity]. Qed.
Lemma digit_ok d : 0 <= d <= 9 -> digit_value (digit_char d) = Some d.
Proof.
  intro H. unfold digit_value, digit_char. rewrite nat_ascii_embedding by lia. rewrite Z2Nat.id by lia.
  replace (48 + d - 48) with d by lia. destruct (Z.leb_spec 0 d); [|lia]. destruct (Z.leb_spec d 9); [reflexivity|lia].
Qed.
Lemma digits_app fuel : forall n acc, digits_of fuel n acc = digits_of fuel n "" ++ acc.
Proof.
  induction fuel as [|fuel IH]; intros n acc; cbn; [reflexivity|]. destruct (n <? 10); [reflexivity|].
  rewrite (IH (n / 10) (String _ acc)), (IH (n / 10) (String _ "")), sapp_assoc. reflexivity.
Qed.
Lemma digits_read fuel : forall n, 0 <= n < 10 ^ Z.of_nat fuel -> (0 < fuel)%nat -> number (digits_of fuel n "") n.
Proof.
  induction fuel as [|fuel IH]; intros n H F; [lia|]. cbn [digits_of].
  assert (M := Z.mod_pos_bound n 10 ltac:(lia)). assert (D := Z.div_mod n 10 ltac:(lia)).
  destruct (Z.ltb_spec n 10).
  - split; [discriminate|]. cbn. rewrite digit_ok by lia. f_equal. rewrite Z.mod_small by lia. lia.
  - assert (P : 0 <= n / 10 < 10 ^ Z.of_nat fuel).
    { split; [apply Z.div_pos; lia|]. apply Z.div_lt_upper_bound; [lia|]. rewrite Nat2Z.inj_succ, Z.pow_succ_r in H by lia. lia. }
    assert (G : (0 < fuel)%nat). { destruct fuel; [|lia]. cbn in H. lia. }
    destruct (IH (n / 10) P G) as [N R]. rewrite digits_app. split.
    + intro E. apply N. destruct (digits_of fuel (n / 10) ""); [reflexivity|discriminate].
    + rewrite read_app, R. cbn [read_from]. rewrite digit_ok by lia. f_equal. lia.
Qed.
Lemma digits_length fuel : forall n k, 0 <= n < 10 ^ Z.of_nat k -> (0 < k)%nat -> (String.length (digits_of fuel n "") <= k)%nat.
Proof.
  induction fuel as [|fuel IH]; intros n k H K; cbn [digits_of]; [cbn; lia|].
  destruct (Z.ltb_spec n 10); [cbn; lia|]. rewrite digits_app, sapp_length. cbn [String.length].
  destruct k as [|k]; [lia|]. rewrite Nat2Z.inj_succ, Z.pow_succ_r in H by lia.
  assert (K' : (0 < k)%nat). { destruct k; [|lia]. cbn in H. lia. }
  assert (P : 0 <= n / 10 < 10 ^ Z.of_nat k) by (split; [apply Z.div_pos; lia|apply Z.div_lt_upper_bound; lia]).
  specialize (IH (n / 10) k P K'). lia.
Qed.
Lemma enough n : 0 <= n -> n < 10 ^ Z.of_nat (S (Z.to_nat (Z.log2 n))).
Proof.
  intro H. rewrite Nat2Z.inj_succ, Z2Nat.id by apply Z.log2_nonneg.
  destruct (Z.eq_dec n 0) as [->|N]; [cbn; lia|]. destruct (Z.log2_spec n ltac:(lia)) as [_ L]. eapply Z.lt_le_trans; [exact L|].
  apply Z.pow_le_mono_l. lia.
Qed.
Lemma decimal_number n : 0 <= n -> number (decimal n) n.
Proof. intro H. unfold decimal. destruct (Z.ltb_spec n 0); [lia|]. apply digits_read; [|lia]. split; [exact H|apply enough; exact H]. Qed.
Lemma decimal_length n k : 0 <= n < 10 ^ Z.of_nat k -> (0 < k)%nat -> (String.length (decimal n) <= k)%nat.
Proof. intros H K. unfold decimal. destruct (Z.ltb_spec n 0); [lia|]. apply digits_length; assumption. Qed.
Lemma decimal_year y : written_year (decimal y) y.
Proof.
  destruct (Z.lt_ge_cases y 0) as [L|L]; [right|left; apply decimal_number; exact L].
  unfold decimal. destruct (Z.ltb_spec y 0); [|lia]. eexists _, (- y). split; [reflexivity|]. split; [|lia].
  apply digits_read; [|lia]. split; [lia|apply enough; lia].
Qed.
Lemma read_zeros n s : read_from 0 (zeros n ++ s) = read_from 0 s.
Proof. induction n as [|n IH]; [reflexivity|]. cbn. exact IH. Qed.
Lemma setw_field n k : 0 <= n < 10 ^ Z.of_nat k -> (0 < k)%nat -> field k (setw k (decimal n)) n.
Proof.
  intros H K. assert (L := decimal_length n k H K). destruct (decimal_number n ltac:(lia)) as [N R]. unfold setw. split.
  - split; [|rewrite read_zeros; exact R]. intro E. apply N. destruct (zeros (k - String.length (decimal n))); [exact E|discriminate].
  - rewrite sapp_length, zeros_length. lia.
Qed.

(** ** Uniqueness *)
Lemma number_inj s n m : number s n -> number s m -> n = m.
Proof. intros [_ A] [_ B]. congruence. Qed.
Lemma number_minus t n : ~ number ("-" ++ t) n.
Proof. intros [_ R]. cbn in R. discriminate. Qed.
Lemma year_inj s y z : written_year s y -> written_year s z -> y = z.
Proof.
  intros [A|(t & n & E & A & ->)] [B|(u & m & E' & B & ->)].
  - eapply number_inj; eauto.
  - subst. apply number_minus in A. contradiction.
  - subst. apply number_minus in B. contradiction.
  - rewrite E in E'. apply sapp_inj_len in E' as [_ <-]; [|reflexivity]. f_equal. eapply number_inj; eauto.
Qed.
Lemma field_inj w s n m : field w s n -> field w s m -> n = m.
Proof. intros [A _] [B _]. eapply number_inj; eauto. Qed.
Lemma month_inj s n m : month_text s n -> month_text s m -> n = m.
Proof.
  intros (sy & y & sm & k & E & Y & M & D) (sy' & y' & sm' & k' & E' & Y' & M' & D'). rewrite E in E'.
  apply sapp_inj_right in E' as [<- E']; [|cbn; f_equal; destruct M as [_ ->], M' as [_ ->]; reflexivity].
  apply sapp_inj_len in E' as [_ <-]; [|reflexivity]. rewrite (year_inj _ _ _ Y Y'), (field_inj _ _ _ _ M M') in D. apply date_inj. congruence.
Qed.
Lemma day_inj s n m : day_text s n -> day_text s m -> n = m.
Proof.
  intros (sy & y & sm & k & sd & d & E & Y & M & D & T) (sy' & y' & sm' & k' & sd' & d' & E' & Y' & M' & D' & T'). rewrite E in E'.
  assert (L : forall w s z, field w s z -> String.length s = w) by (intros w s0 z [_ H]; exact H).
  apply sapp_inj_right in E' as [<- E']; [|rewrite !sapp_length, (L _ _ _ M), (L _ _ _ M'), (L _ _ _ D), (L _ _ _ D'); reflexivity].
  apply sapp_inj_len in E' as [_ E']; [|reflexivity].
  apply sapp_inj_len in E' as [<- E']; [|rewrite (L _ _ _ M), (L _ _ _ M'); reflexivity].
  apply sapp_inj_len in E' as [_ <-]; [|reflexivity].
  rewrite (year_inj _ _ _ Y Y'), (field_inj _ _ _ _ M M'), (field_inj _ _ _ _ D D') in T. apply date_inj. congruence.
Qed.
Lemma field_len w s z : field w s z -> String.length s = w.
Proof. intros [_ H]. exact H. Qed.
Lemma hour_inj s a b : hour_text s a -> hour_text s b -> a = b /\ String.length s = 2%nat.
Proof. intros (h & F & _ & ->) (h' & F' & _ & ->). rewrite (field_inj _ _ _ _ F F'). split; [reflexivity|apply (field_len _ _ _ F)]. Qed.
Lemma hour_len s a : hour_text s a -> String.length s = 2%nat.
Proof. intros (h & F & _). exact (field_len _ _ _ F). Qed.
Lemma minute_len s a : minute_text s a -> String.length s = 5%nat.
Proof. intros (sh & h & sm & m & -> & H & M & _). rewrite !sapp_length, (field_len _ _ _ H), (field_len _ _ _ M). reflexivity. Qed.
Lemma second_len s a : second_text s a -> String.length s = 8%nat.
Proof. intros (sh & h & sm & m & ss & k & -> & H & M & K & _). rewrite !sapp_length, (field_len _ _ _ H), (field_len _ _ _ M), (field_len _ _ _ K). reflexivity. Qed.
Lemma minute_inj s a b : minute_text s a -> minute_text s b -> a = b.
Proof.
  intros (sh & h & sm & m & E & H & M & _ & _ & ->) (sh' & h' & sm' & m' & E' & H' & M' & _ & _ & ->). rewrite E in E'.
  apply sapp_inj_len in E' as [<- E']; [|rewrite (field_len _ _ _ H), (field_len _ _ _ H'); reflexivity].
  apply sapp_inj_len in E' as [_ <-]; [|reflexivity]. rewrite (field_inj _ _ _ _ H H'), (field_inj _ _ _ _ M M'). reflexivity.
Qed.
Lemma second_inj s a b : second_text s a -> second_text s b -> a = b.
Proof.
  intros (sh & h & sm & m & ss & k & E & H & M & K & _ & _ & _ & ->) (sh' & h' & sm' & m' & ss' & k' & E' & H' & M' & K' & _ & _ & _ & ->). rewrite E in E'.
  apply sapp_inj_len in E' as [<- E']; [|rewrite (field_len _ _ _ H), (field_len _ _ _ H'); reflexivity].
  apply sapp_inj_len in E' as [_ E']; [|reflexivity].
  apply sapp_inj_len in E' as [<- E']; [|rewrite (field_len _ _ _ M), (field_len _ _ _ M'); reflexivity].
  apply sapp_inj_len in E' as [_ <-]; [|reflexivity].
  rewrite (field_inj _ _ _ _ H H'), (field_inj _ _ _ _ M M'), (field_inj _ _ _ _ K K'). reflexivity.
Qed.
Lemma timed_inj a b c d : String.length b = String.length d -> a ++ "T" ++ b = c ++ "T" ++ d -> a = c /\ b = d.
Proof.
  intros L E. apply sapp_inj_right in E as [<- E]; [|cbn; congruence]. apply sapp_inj_len in E as [_ E]; [|reflexivity]. auto.
Qed.
Lemma denotes_fun r s t u : denotes r s t -> denotes r s u -> t = u.
Proof.
  destruct r; cbn [denotes].
  - intros (y & n & Y & D & ->) (y' & n' & Y' & D' & ->). rewrite (year_inj _ _ _ Y Y') in D. rewrite (date_inj n n') by congruence. reflexivity.
  - intros (n & M & ->) (n' & M' & ->). rewrite (month_inj _ _ _ M M'). reflexivity.
  - intros (n & M & ->) (n' & M' & ->). rewrite (day_inj _ _ _ M M'). reflexivity.
  - intros (n & M & ->) (n' & M' & ->). rewrite (day_inj _ _ _ M M'). reflexivity.
  - intros (a & b & n & k & E & D & H & ->) (a' & b' & n' & k' & E' & D' & H' & ->). rewrite E in E'.
    apply timed_inj in E' as [<- <-]; [|rewrite (hour_len _ _ H), (hour_len _ _ H'); reflexivity].
    rewrite (day_inj _ _ _ D D'). destruct (hour_inj _ _ _ H H') as [-> _]. reflexivity.
  - intros (a & b & n & k & E & D & H & ->) (a' & b' & n' & k' & E' & D' & H' & ->). rewrite E in E'.
    apply timed_inj in E' as [<- <-]; [|rewrite (minute_len _ _ H), (minute_len _ _ H'); reflexivity].
    rewrite (day_inj _ _ _ D D'), (minute_inj _ _ _ H H'). reflexivity.
  - intros (a & b & n & k & E & D & H & ->) (a' & b' & n' & k' & E' & D' & H' & ->). rewrite E in E'.
    apply timed_inj in E' as [<- <-]; [|rewrite (second_len _ _ H), (second_len _ _ H'); reflexivity].
    rewrite (day_inj _ _ _ D D'), (second_inj _ _ _ H H'). reflexivity.
  - intros (a & b & c & n & k & f & E & D & H & F & ->) (a' & b' & c' & n' & k' & f' & E' & D' & H' & F' & ->). rewrite E in E'.
    apply timed_inj in E' as [<- E']; [|rewrite !sapp_length, (second_len _ _ H), (second_len _ _ H'), (field_len _ _ _ F), (field_len _ _ _ F'); reflexivity].
    apply sapp_inj_len in E' as [<- E']; [|rewrite (second_len _ _ H), (second_len _ _ H'); reflexivity].
    apply sapp_inj_len in E' as [_ <-]; [|reflexivity]. rewrite (day_inj _ _ _ D D'), (second_inj _ _ _ H H'), (field_inj _ _ _ _ F F'). reflexivity.
  - intros (a & b & c & n & k & f & E & D & H & F & ->) (a' & b' & c' & n' & k' & f' & E' & D' & H' & F' & ->). rewrite E in E'.
    apply timed_inj in E' as [<- E']; [|rewrite !sapp_length, (second_len _ _ H), (second_len _ _ H'), (field_len _ _ _ F), (field_len _ _ _ F'); reflexivity].
    apply sapp_inj_len in E' as [<- E']; [|rewrite (second_len _ _ H), (second_len _ _ H'); reflexivity].
    apply sapp_inj_len in E' as [_ <-]; [|reflexivity]. rewrite (day_inj _ _ _ D D'), (second_inj _ _ _ H H'), (field_inj _ _ _ _ F F'). reflexivity.
  - intros (a & b & c & n & k & f & E & D & H & F & ->) (a' & b' & c' & n' & k' & f' & E' & D' & H' & F' & ->). rewrite E in E'.
    apply timed_inj in E' as [<- E']; [|rewrite !sapp_length, (second_len _ _ H), (second_len _ _ H'), (field_len _ _ _ F), (field_len _ _ _ F'); reflexivity].
    apply sapp_inj_len in E' as [<- E']; [|rewrite (second_len _ _ H), (second_len _ _ H'); reflexivity].
    apply sapp_inj_len in E' as [_ <-]; [|reflexivity]. rewrite (day_inj _ _ _ D D'), (second_inj _ _ _ H H'), (field_inj _ _ _ _ F F'). reflexivity.
  - intros (a & b & c & n & k & f & E & D & H & F & ->) (a' & b' & c' & n' & k' & f' & E' & D' & H' & F' & ->). rewrite E in E'.
    apply timed_inj in E' as [<- E']; [|rewrite !sapp_length, (second_len _ _ H), (second_len _ _ H'), (field_len _ _ _ F), (field_len _ _ _ F'); reflexivity].
    apply sapp_inj_len in E' as [<- E']; [|rewrite (second_len _ _ H), (second_len _ _ H'); reflexivity].
    apply sapp_inj_len in E' as [_ <-]; [|reflexivity]. rewrite (day_inj _ _ _ D D'), (second_inj _ _ _ H H'), (field_inj _ _ _ _ F F'). reflexivity.
  - intros (a & b & c & n & k & f & E & D & H & F & ->) (a' & b' & c' & n' & k' & f' & E' & D' & H' & F' & ->). rewrite E in E'.
    apply timed_inj in E' as [<- E']; [|rewrite !sapp_length, (second_len _ _ H), (second_len _ _ H'), (field_len _ _ _ F), (field_len _ _ _ F'); reflexivity].
    apply sapp_inj_len in E' as [<- E']; [|rewrite (second_len _ _ H), (second_len _ _ H'); reflexivity].
    apply sapp_inj_len in E' as [_ <-]; [|reflexivity]. rewrite (day_inj _ _ _ D D'), (second_inj _ _ _ H H'), (field_inj _ _ _ _ F F'). reflexivity.
  - intros (a & b & c & n & k & f & E & D & H & F & ->) (a' & b' & c' & n' & k' & f' & E' & D' & H' & F' & ->). rewrite E in E'.
    apply timed_inj in E' as [<- E']; [|rewrite !sapp_length, (second_len _ _ H), (second_len _ _ H'), (field_len _ _ _ F), (field_len _ _ _ F'); reflexivity].
    apply sapp_inj_len in E' as [<- E']; [|rewrite (second_len _ _ H), (second_len _ _ H'); reflexivity].
    apply sapp_inj_len in E' as [_ <-]; [|reflexivity]. rewrite (day_inj _ _ _ D D'), (second_inj _ _ _ H H'), (field_inj _ _ _ _ F F'). reflexivity.
Qed.
