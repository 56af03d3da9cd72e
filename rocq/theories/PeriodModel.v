(** Model of include/pyinterp/period.hpp (struct Period, class PeriodList).
    Instants are integers (int64_t counts of the datetime64 unit).
    Simplification: unbounded integers (no overflow of [last + 1] or
    [begin - tolerance]). *)
From Verif Require Import Base.
Open Scope Z_scope.

(** period.hpp:11-18, 163-165: fields [begin] and [last] (inclusive). *)
Record period : Type := mk_period { p_begin : Z; p_last : Z }.

(** period.hpp:13-15: Period(begin, end, within). *)
Definition period_ctor (b e : Z) (within : bool) : period :=
  mk_period b (e - (if within then 0 else 1)).

(** period.hpp:21 *)
Definition p_end (p : period) : Z := p_last p + 1.
(** period.hpp:24-30 *)
Definition p_length (p : period) : Z :=
  if p_last p <? p_begin p then p_last p + 1 - p_begin p else p_end p - p_begin p.
(** period.hpp:32 *)
Definition p_duration (p : period) : Z := p_end p - p_begin p.
(** period.hpp:35 *)
Definition p_is_null (p : period) : bool := p_end p <=? p_begin p.
(** period.hpp:38-40 *)
Definition p_eqb (p q : period) : bool := (p_begin p =? p_begin q) && (p_last p =? p_last q).
(** period.hpp:43-45 *)
Definition p_ltb (p q : period) : bool := p_last p <? p_begin q.
(** period.hpp:49-51 *)
Definition p_contains (p : period) (t : Z) : bool := (t >=? p_begin p) && (t <=? p_last p).
(** period.hpp:54-56 *)
Definition p_contains_period (p q : period) : bool :=
  (p_begin p <=? p_begin q) && (p_last p >=? p_last q).
(** period.hpp:67-69 *)
Definition p_is_adjacent (p q : period) : bool :=
  (p_begin q =? p_end p) || (p_begin p =? p_end q).
(** period.hpp:78-84 *)
Definition p_is_after (p : period) (t : Z) : bool :=
  if p_is_null p then false else t <? p_begin p.
(** period.hpp:94-100 *)
Definition p_is_before (p : period) (t : Z) : bool :=
  if p_is_null p then false else p_last p <? t.
(** period.hpp:111-114 *)
Definition p_intersects (p q : period) : bool :=
  p_contains p (p_begin q) || p_contains q (p_begin p) ||
  ((p_begin q <? p_begin p) && (p_last q >=? p_begin p)).
(** period.hpp:121-133 *)
Definition p_intersection (p q : period) : period :=
  if p_begin p >? p_begin q then
    (if p_last p <=? p_last q then p else mk_period (p_begin p) (p_last q))
  else if p_last p <=? p_last q then mk_period (p_begin q) (p_last p)
  else q.
(** period.hpp:139-148 *)
Definition p_merge (p q : period) : period :=
  if p_intersects p q then
    (if p_begin p <? p_begin q
     then mk_period (p_begin p) (if p_last p >? p_last q then p_last p else p_last q)
     else mk_period (p_begin q) (if p_last p >? p_last q then p_last p else p_last q))
  else period_ctor (p_begin p) (p_begin p) false.
(** period.hpp:156-159 *)
Definition p_is_close (p : period) (date tol : Z) : bool :=
  (date >=? p_begin p - tol) && (date <=? p_last p + tol).

(** period.hpp:182-195: are_periods_sorted_and_disjointed, the loop over
    consecutive pairs. *)
Fixpoint pl_sorted_disjoint (l : list period) : bool :=
  match l with
  | prev :: ((next :: _) as t) =>
      if p_intersects prev next || (p_last next <? p_begin prev) then false
      else pl_sorted_disjoint t
  | _ => true
  end.

(** period.hpp:198-201 [std::sort] by [begin].  The C++ standard leaves the order
    of periods with equal [begin] unspecified; the model is the stable insertion
    sort. *)
Fixpoint pl_insert (p : period) (l : list period) : list period :=
  match l with
  | [] => [p]
  | q :: t => if p_begin q <? p_begin p then q :: pl_insert p t else p :: l
  end.
Fixpoint pl_sort (l : list period) : list period :=
  match l with [] => [] | p :: t => pl_insert p (pl_sort t) end.

(** period.hpp:211-222 [insert_or_merge]; the output array is kept reversed. *)
Definition insert_or_merge (out : list period) (p : period) : list period :=
  match out with
  | [] => [p]
  | top :: rest =>
      let overlap := p_merge top p in
      if p_is_null overlap then p :: top :: rest else overlap :: rest
  end.

(** period.hpp:224-236: the three while loops of [merge]. *)
Fixpoint pl_merge_loop (fuel : nat) (a b out : list period) : list period :=
  match fuel with
  | O => out
  | S n =>
      match a, b with
      | p :: a', q :: b' =>
          if p_is_after q (p_begin p) then pl_merge_loop n a' b (insert_or_merge out p)
          else pl_merge_loop n a b' (insert_or_merge out q)
      | p :: a', [] => pl_merge_loop n a' [] (insert_or_merge out p)
      | [], q :: b' => pl_merge_loop n [] b' (insert_or_merge out q)
      | [], [] => out
      end
  end.
(** period.hpp:204-240 [merge]. *)
Definition pl_merge (a b : list period) : list period :=
  rev (pl_merge_loop (length a + length b) a b []).

(** period.hpp:265-275, [lookup]: first period, from [first_index] on, containing or
    after the date.  The list is the suffix starting at [index]; [-1] when none. *)
Fixpoint pl_lookup_from (l : list period) (index date : Z) : Z :=
  match l with
  | [] => -1
  | p :: t => if p_contains p date || p_is_after p date then index
              else pl_lookup_from t (index + 1) date
  end.
Definition pl_lookup (periods : list period) (first_index date : Z) : Z :=
  pl_lookup_from (skipn (Z.to_nat first_index) periods) first_index date.

(** period.hpp:286-304, the loop over the dates; dates after the [break] keep
    [false].  [lookup] guarantees that the period found contains or follows the
    date, so the inner test of line 299 is always true there; it is kept. *)
Fixpoint pl_cross_loop (periods : list period) (dates : list Z) (first_index last_index : Z)
  : list bool :=
  match dates with
  | [] => []
  | d :: t =>
      let fi := pl_lookup periods first_index d in
      if (fi =? -1) || (fi =? last_index) then map (fun _ => false) dates
      else
        let flag := match znth periods fi with
                    | Some p => p_contains p d || p_is_after p d
                    | None => false
                    end in
        flag :: pl_cross_loop periods t fi last_index
  end.

(** period.hpp:247-306 [cross_a_period]. *)
Definition pl_cross (periods : list period) (dates : list Z) : outcome (list bool) :=
  match znth dates (zlen dates - 1) with
  | None => UB "dates[-1] on an empty vector"
  | Some last_date =>
      let last_index := pl_lookup periods 0 last_date in
      let inside := negb (last_index =? -1) &&
                    match znth periods last_index with
                    | Some p => p_contains p last_date | None => false end in
      Ok (if inside then map (fun _ => true) dates
          else pl_cross_loop periods dates 0 last_index)
  end.

(** period.hpp:333-335: [while (!it->contains(date) && !it->is_after(date) && it !=
    end) ++it]: [it] is dereferenced before it is compared with [end].  The
    remaining periods are the iterator; [None] is the dereference of [end]. *)
Fixpoint pl_advance (it : list period) (date : Z) : option (list period) :=
  match it with
  | [] => None
  | p :: t => if negb (p_contains p date) && negb (p_is_after p date)
              then pl_advance t date else Some it
  end.

(** period.hpp:313-348 [belong_to_a_period]. *)
Fixpoint pl_belong_loop (it : list period) (dates : list Z) : outcome (list bool) :=
  match dates with
  | [] => Ok []
  | d :: t =>
      match pl_advance it d with
      | None => UB "dereference of end()"
      | Some it' =>
          let flag := match it' with p :: _ => p_contains p d | [] => false end in
          olet r := pl_belong_loop it' t in Ok (flag :: r)
      end
  end.
Definition pl_belong (periods : list period) (dates : list Z) : outcome (list bool) :=
  pl_belong_loop periods dates.

(** period.hpp:362-369 *)
Definition pl_is_close (l : list period) (date eps : Z) : bool :=
  existsb (fun p => p_is_close p date eps) l.

(** period.hpp:375-394 [join_adjacent_periods]: [cur] is [result(ix-1)], [prev] is
    [periods_[jx-1]]. *)
Fixpoint pl_join_loop (cur prev : period) (l : list period) (eps : Z) : list period :=
  match l with
  | [] => [cur]
  | p :: t =>
      if p_begin p - p_last prev <=? eps
      then pl_join_loop (mk_period (p_begin cur) (p_last p)) p t eps
      else cur :: pl_join_loop p p t eps
  end.
Definition pl_join (l : list period) (eps : Z) : list period :=
  match l with [] => [] | p :: t => pl_join_loop p p t eps end.

(** The in-place compaction loop shared by [within] (401-412), [intersection]
    (418-430) and [filter] (438-449): [for jx: if (keep(arr(jx))) arr(ix++) =
    f(arr(jx))], then [conservativeResize(ix)]. *)
Fixpoint compact_loop (n : nat) (f : period -> option period) (arr : list period) (ix jx : nat)
  : list period :=
  match n with
  | O => firstn ix arr
  | S n' =>
      match nth_error arr jx with
      | None => firstn ix arr
      | Some p =>
          match f p with
          | Some q => compact_loop n' f (set_nth ix q arr) (S ix) (S jx)
          | None => compact_loop n' f arr ix (S jx)
          end
      end
  end.
Definition compact (f : period -> option period) (l : list period) : list period :=
  compact_loop (length l) f l 0 0.

Definition pl_within (l : list period) (p : period) : list period :=
  compact (fun q => if p_intersects p q then Some q else None) l.
Definition pl_intersection (l : list period) (p : period) : list period :=
  compact (fun q => let i := p_intersection q p in if p_is_null i then None else Some i) l.
Definition pl_filter (l : list period) (min_duration : Z) : list period :=
  compact (fun q => if p_duration q >=? min_duration then Some q else None) l.

(** Python: src/pyinterp/period.py [PeriodList.duration]: last - begin. *)
Definition py_durations (l : list period) : list Z := map (fun p => p_last p - p_begin p) l.
