(** Theorems about the texts of dates (C130). *)
From Coq Require Import Ascii.
From Verif Require Import Base DateModel DateSpec DateProofs DateProofs2 DateProps PyPeriodModel PyPeriodSpec PyPeriodProofs
  DateTextModel DateTextSpec DateTextProofs.
Open Scope string_scope.
Open Scope Z_scope.
Ltac Zify.zify_post_hook ::= idtac.

Lemma two n : 0 <= n < 100 -> field 2 (setw 2 (decimal n)) n.
Proof. intro H. apply setw_field; [exact H|lia]. Qed.
Lemma write_day_text d n : date_from_days n = d -> day_text (write_day d) n.
Proof.
  intros <-. assert (V := date_valid n). destruct V as [M D]. assert (L := month_length_pos (year (date_from_days n)) (month (date_from_days n))).
  unfold write_day, write_month. set (d := date_from_days n) in *.
  exists (decimal (year d)), (year d), (setw 2 (decimal (month d))), (month d), (setw 2 (decimal (day d))), (day d).
  split; [rewrite !sapp_assoc; reflexivity|]. split; [apply decimal_year|]. split; [apply two; lia|]. split; [apply two; lia|].
  fold d. clear. destruct d; reflexivity.
Qed.
Lemma seconds_text d t n : date_from_days n = d -> 0 <= hour t < 24 -> 0 <= minute t < 60 -> 0 <= second t < 60 ->
  exists b, write_second d t = write_day d ++ "T" ++ b /\ second_text b (hour t * 3600 + minute t * 60 + second t).
Proof.
  intros _ H M S. exists (setw 2 (decimal (hour t)) ++ ":" ++ setw 2 (decimal (minute t)) ++ ":" ++ setw 2 (decimal (second t))). split.
  - unfold write_second, write_minute, write_hour. rewrite !sapp_assoc. reflexivity.
  - eexists _, _, _, _, _, _. split; [reflexivity|]. split; [apply two; lia|]. split; [apply two; lia|]. split; [apply two; lia|]. lia.
Qed.
Lemma units r oom : order_of_magnitude r = Ok oom ->
  ndigits oom = decimals r /\ oom = 10 ^ Z.of_nat (decimals r) /\ forall v, instant r v = v * 10 ^ (18 - Z.of_nat (decimals r)).
Proof.
  destruct r; intros [= <-]; (split; [reflexivity|]); (split; [reflexivity|]); intro v; cbn [instant]; f_equal.
Qed.

(** Every date is written, and its text denotes the instant at which the date begins (the spans of PyPeriodSpec.v). *)
Theorem C130_text : forall r v, exists s t, datetime64_to_string r v = Ok s /\ begins r v t /\ denotes r s t.
Proof.
  intros r v.
  assert (SUB : forall oom, order_of_magnitude r = Ok oom -> exists a b n k f,
    date_from_days n = date_from_days (v / oom / 86400) /\ day_text a n /\ second_text b k /\ 0 <= f < oom /\ v = (n * 86400 + k) * oom + f /\
    (let '(days, seconds, fractional) := days_since_epoch oom v in
      let s := write_second (date_from_days days) (time_from_seconds seconds) in
      if (0 <? ndigits oom)%nat then s ++ "." ++ setw (ndigits oom) (decimal fractional) else s) =
    (if (0 <? decimals r)%nat then a ++ "T" ++ b ++ "." ++ setw (decimals r) (decimal f) else a ++ "T" ++ b)).
  { intros oom O. assert (P := oom_pos _ _ O). rewrite days_since_epoch_spec by exact P. destruct (units _ _ O) as (N & _ & _). rewrite N.
    destruct (time_spec (v / oom)) as (A & B & C & D). set (tm := time_from_seconds (v / oom)) in *.
    destruct (seconds_text (date_from_days (v / oom / 86400)) tm _ eq_refl A B C) as (b & W & T).
    exists (write_day (date_from_days (v / oom / 86400))), b, (v / oom / 86400), (hour tm * 3600 + minute tm * 60 + second tm), (v mod oom).
    split; [reflexivity|]. split; [apply write_day_text; reflexivity|]. split; [exact T|]. split; [apply Z.mod_pos_bound; exact P|]. split.
    - rewrite D. assert (E1 := Z.div_mod v oom ltac:(lia)). assert (E2 := Z.div_mod (v / oom) 86400 ltac:(lia)). lia.
    - rewrite W. destruct (0 <? decimals r)%nat; [rewrite !sapp_assoc|]; reflexivity. }
  destruct r; cbn [order_of_magnitude] in SUB.
  - eexists _, _. split; [reflexivity|]. split; [apply begins_iff; reflexivity|]. cbn [denotes].
    exists (1970 + v), (january (1970 + v)). split; [apply decimal_year|]. split; [apply january_date|]. cbn [instant delta_as]; unfold day_as; cbn [delta_as]; lia.
  - eexists _, _. split; [reflexivity|]. split; [apply begins_iff; reflexivity|]. cbn [denotes].
    exists (first_of v). split; [|rewrite month_instant; lia].
    assert (C := C59_months v). cbv zeta in C. destruct C as (M & D & Y).
    eexists _, _, _, _. split; [reflexivity|]. split; [apply decimal_year|]. split; [apply two; lia|].
    rewrite first_of_date. f_equal; Z.div_mod_to_equations; lia.
  - eexists _, _. split; [reflexivity|]. split; [apply begins_iff; reflexivity|]. cbn [denotes].
    exists (v * 7). split; [apply write_day_text; reflexivity|]. cbn [instant delta_as]. lia.
  - eexists _, _. split; [reflexivity|]. split; [apply begins_iff; reflexivity|]. cbn [denotes].
    exists v. split; [apply write_day_text; reflexivity|]. cbn [instant delta_as]. lia.
  - assert (C := C59_hours v). unfold datetime64_to_string. destruct (datetime_from_hours v) as [d t]. destruct C as (n & D & _ & _ & H & E).
    eexists _, _. split; [reflexivity|]. split; [apply begins_iff; reflexivity|]. cbn [denotes].
    exists (write_day d), (setw 2 (decimal (hour t))), n, (hour t * 3600). split; [reflexivity|]. split; [apply write_day_text; exact D|]. split.
    + exists (hour t). split; [apply two; lia|]. lia.
    + cbn [instant delta_as]. lia.
  - assert (C := C59_minutes v). unfold datetime64_to_string. destruct (datetime_from_minutes v) as [d t]. destruct C as (n & D & _ & H & M & E).
    eexists _, _. split; [reflexivity|]. split; [apply begins_iff; reflexivity|]. cbn [denotes].
    exists (write_day d), (setw 2 (decimal (hour t)) ++ ":" ++ setw 2 (decimal (minute t))), n, (hour t * 3600 + minute t * 60).
    split; [unfold write_minute, write_hour; rewrite !sapp_assoc; reflexivity|]. split; [apply write_day_text; exact D|]. split.
    + eexists _, _, _, _. split; [reflexivity|]. split; [apply two; lia|]. split; [apply two; lia|]. lia.
    + cbn [instant delta_as]. lia.
  - destruct (SUB _ eq_refl) as (a & b & n & k & f & _ & A & B & F & E & W). unfold datetime64_to_string. cbn [order_of_magnitude obind].
    destruct (days_since_epoch 1 v) as [[x y] z]. cbv zeta in W |- *. rewrite W. eexists _, _. split; [reflexivity|]. split; [apply begins_iff; reflexivity|].
    exists a, b, n, k. split; [reflexivity|]. split; [exact A|]. split; [exact B|]. cbn [instant delta_as]. lia.
  - destruct (SUB _ eq_refl) as (a & b & n & k & f & _ & A & B & F & E & W). unfold datetime64_to_string. cbn [order_of_magnitude obind].
    destruct (days_since_epoch _ v) as [[x y] z]. cbv zeta in W |- *. rewrite W. eexists _, _. split; [reflexivity|]. split; [apply begins_iff; reflexivity|].
    exists a, b, (setw 3 (decimal f)), n, k, f. split; [reflexivity|]. split; [exact A|]. split; [exact B|]. split; [apply setw_field; [exact F|cbn; lia]|].
    cbn [instant delta_as decimals]. change (10 ^ (18 - Z.of_nat 3)) with 1000000000000000. lia.
  - destruct (SUB _ eq_refl) as (a & b & n & k & f & _ & A & B & F & E & W). unfold datetime64_to_string. cbn [order_of_magnitude obind].
    destruct (days_since_epoch _ v) as [[x y] z]. cbv zeta in W |- *. rewrite W. eexists _, _. split; [reflexivity|]. split; [apply begins_iff; reflexivity|].
    exists a, b, (setw 6 (decimal f)), n, k, f. split; [reflexivity|]. split; [exact A|]. split; [exact B|]. split; [apply setw_field; [exact F|cbn; lia]|].
    cbn [instant delta_as decimals]. change (10 ^ (18 - Z.of_nat 6)) with 1000000000000. lia.
  - destruct (SUB _ eq_refl) as (a & b & n & k & f & _ & A & B & F & E & W). unfold datetime64_to_string. cbn [order_of_magnitude obind].
    destruct (days_since_epoch _ v) as [[x y] z]. cbv zeta in W |- *. rewrite W. eexists _, _. split; [reflexivity|]. split; [apply begins_iff; reflexivity|].
    exists a, b, (setw 9 (decimal f)), n, k, f. split; [reflexivity|]. split; [exact A|]. split; [exact B|]. split; [apply setw_field; [exact F|cbn; lia]|].
    cbn [instant delta_as decimals]. change (10 ^ (18 - Z.of_nat 9)) with 1000000000. lia.
  - destruct (SUB _ eq_refl) as (a & b & n & k & f & _ & A & B & F & E & W). unfold datetime64_to_string. cbn [order_of_magnitude obind].
    destruct (days_since_epoch _ v) as [[x y] z]. cbv zeta in W |- *. rewrite W. eexists _, _. split; [reflexivity|]. split; [apply begins_iff; reflexivity|].
    exists a, b, (setw 12 (decimal f)), n, k, f. split; [reflexivity|]. split; [exact A|]. split; [exact B|]. split; [apply setw_field; [exact F|cbn; lia]|].
    cbn [instant delta_as decimals]. change (10 ^ (18 - Z.of_nat 12)) with 1000000. lia.
  - destruct (SUB _ eq_refl) as (a & b & n & k & f & _ & A & B & F & E & W). unfold datetime64_to_string. cbn [order_of_magnitude obind].
    destruct (days_since_epoch _ v) as [[x y] z]. cbv zeta in W |- *. rewrite W. eexists _, _. split; [reflexivity|]. split; [apply begins_iff; reflexivity|].
    exists a, b, (setw 15 (decimal f)), n, k, f. split; [reflexivity|]. split; [exact A|]. split; [exact B|]. split; [apply setw_field; [exact F|cbn; lia]|].
    cbn [instant delta_as decimals]. change (10 ^ (18 - Z.of_nat 15)) with 1000. lia.
  - destruct (SUB _ eq_refl) as (a & b & n & k & f & _ & A & B & F & E & W). unfold datetime64_to_string. cbn [order_of_magnitude obind].
    destruct (days_since_epoch _ v) as [[x y] z]. cbv zeta in W |- *. rewrite W. eexists _, _. split; [reflexivity|]. split; [apply begins_iff; reflexivity|].
    exists a, b, (setw 18 (decimal f)), n, k, f. split; [reflexivity|]. split; [exact A|]. split; [exact B|]. split; [apply setw_field; [exact F|cbn; lia]|].
    cbn [instant delta_as decimals]. change (10 ^ (18 - Z.of_nat 18)) with 1. lia.
Qed.
Print Assumptions C130_text.

(** A text denotes one instant only: what is shown to the user identifies the date. *)
Theorem C130_one_instant : forall r s t u, denotes r s t -> denotes r s u -> t = u.
Proof. exact denotes_fun. Qed.
Print Assumptions C130_one_instant.
Theorem C130_injective : forall r v w, datetime64_to_string r v = datetime64_to_string r w -> v = w.
Proof.
  intros r v w E. destruct (C130_text r v) as (s & t & S1 & B1 & D1). destruct (C130_text r w) as (s' & u & S2 & B2 & D2).
  assert (s = s') by congruence. subst s'. assert (X := denotes_fun _ _ _ _ D1 D2).
  apply begins_iff in B1, B2. rewrite <- (count_instant r v), <- (count_instant r w). congruence.
Qed.
Print Assumptions C130_injective.

(** The years are not padded to the four digits of ISO 8601: the text of the year 5 is not the one numpy writes, and
    the texts are not in the order of the dates. *)
Theorem C130_iso_refuted : datetime64_to_string kDay (-717701) = Ok "5-01-01" /\ datetime64_to_string kDay (-715875) = Ok "10-01-01" /\
  -717701 < -715875 /\ String.compare "5-01-01" "10-01-01" = Gt.
Proof. repeat split; reflexivity. Qed.
Print Assumptions C130_iso_refuted.

Example C130_ex : datetime64_to_string kMillisecond 1078057859250 = Ok "2004-02-29T12:30:59.250" /\
  datetime64_to_string kNanosecond (-1) = Ok "1969-12-31T23:59:59.999999999" /\ datetime64_to_string kMonth (-1) = Ok "1969-12" /\
  datetime64_to_string kMinute (-1) = Ok "1969-12-31T23:59" /\ datetime64_to_string kYear (-1975) = Ok "-5".
Proof. repeat split; reflexivity. Qed.
