(** What a text such as 2004-02-29T12:30:59.250 denotes, independently of the code that writes it. *)
From Coq Require Import Ascii.
From Verif Require Import Base DateModel DateSpec PyPeriodSpec.
Open Scope string_scope.
Open Scope Z_scope.

(** Reading of decimal digits, from left to right; [a] is what was read before. *)
Definition digit_value (c : ascii) : option Z :=
  let k := Z.of_nat (nat_of_ascii c) - 48 in if (0 <=? k) && (k <=? 9) then Some k else None.
Fixpoint read_from (a : Z) (s : string) : option Z :=
  match s with
  | EmptyString => Some a
  | String c t => match digit_value c with Some d => read_from (10 * a + d) t | None => None end
  end.
Definition number (s : string) (n : Z) : Prop := s <> "" /\ read_from 0 s = Some n.
(** A number of [w] digits. *)
Definition field (w : nat) (s : string) (n : Z) : Prop := number s n /\ String.length s = w.
(** A year: any number of digits, the years before the year 0 have a minus sign. *)
Definition written_year (s : string) (y : Z) : Prop :=
  number s y \/ exists t n, s = "-" ++ t /\ number t n /\ y = - n.

(** The text of a month, of a day (of number [n] from 1970-01-01), of a time of the day. *)
Definition month_text (s : string) (n : Z) : Prop :=
  exists sy y sm m, s = sy ++ "-" ++ sm /\ written_year sy y /\ field 2 sm m /\ date_from_days n = mk_date y m 1.
Definition day_text (s : string) (n : Z) : Prop :=
  exists sy y sm m sd d, s = sy ++ "-" ++ sm ++ "-" ++ sd /\ written_year sy y /\ field 2 sm m /\ field 2 sd d /\
    date_from_days n = mk_date y m d.
Definition hour_text (s : string) (seconds : Z) : Prop :=
  exists h, field 2 s h /\ h < 24 /\ seconds = h * 3600.
Definition minute_text (s : string) (seconds : Z) : Prop :=
  exists sh h sm m, s = sh ++ ":" ++ sm /\ field 2 sh h /\ field 2 sm m /\ h < 24 /\ m < 60 /\ seconds = h * 3600 + m * 60.
Definition second_text (s : string) (seconds : Z) : Prop :=
  exists sh h sm m ss k, s = sh ++ ":" ++ sm ++ ":" ++ ss /\ field 2 sh h /\ field 2 sm m /\ field 2 ss k /\
    h < 24 /\ m < 60 /\ k < 60 /\ seconds = h * 3600 + m * 60 + k.
(** Decimals of the seconds. *)
Definition decimals (r : resolution) : nat :=
  match r with
  | kMillisecond => 3 | kMicrosecond => 6 | kNanosecond => 9 | kPicosecond => 12 | kFemtosecond => 15 | kAttosecond => 18
  | _ => 0
  end.

(** The instant (in attoseconds from 1970-01-01T00:00) that a text denotes, for each precision. *)
Definition denotes (r : resolution) (s : string) (t : Z) : Prop :=
  match r with
  | kYear => exists y n, written_year s y /\ date_from_days n = mk_date y 1 1 /\ t = n * 86400 * 10 ^ 18
  | kMonth => exists n, month_text s n /\ t = n * 86400 * 10 ^ 18
  | kWeek | kDay => exists n, day_text s n /\ t = n * 86400 * 10 ^ 18
  | kHour => exists a b n k, s = a ++ "T" ++ b /\ day_text a n /\ hour_text b k /\ t = (n * 86400 + k) * 10 ^ 18
  | kMinute => exists a b n k, s = a ++ "T" ++ b /\ day_text a n /\ minute_text b k /\ t = (n * 86400 + k) * 10 ^ 18
  | kSecond => exists a b n k, s = a ++ "T" ++ b /\ day_text a n /\ second_text b k /\ t = (n * 86400 + k) * 10 ^ 18
  | _ => exists a b c n k f, s = a ++ "T" ++ b ++ "." ++ c /\ day_text a n /\ second_text b k /\ field (decimals r) c f /\
      t = (n * 86400 + k) * 10 ^ 18 + f * 10 ^ (18 - Z.of_nat (decimals r))
  end.
