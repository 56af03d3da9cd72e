(** C108: grids made from arrays of any type of numpy. *)
From Coq Require Import Ascii.
From Verif Require Import Base BaseProofs NamesModel DtypeModel DtypeSpec.
Local Open Scope string_scope.
Local Open Scope Z_scope.

Lemma round_bits_nearest : forall p n, 0 < p -> nearest_bits p n (round_bits p n).
Proof.
  intros p n P. unfold round_bits. set (s := Z.log2 (Z.abs n) + 1 - p).
  destruct (Z.leb_spec s 0) as [S|S].
  - split; [|intros z _; rewrite Z.sub_diag; apply Z.abs_nonneg].
    exists n, 0. split; [cbn; lia|]. split; [|lia].
    destruct (Z.eq_dec n 0) as [->|N]; [cbn; apply Z.pow_pos_nonneg; lia|].
    apply Z.lt_le_trans with (2 ^ (Z.succ (Z.log2 (Z.abs n)))); [apply Z.log2_spec; lia|apply Z.pow_le_mono_r; lia].
  - assert (N : n <> 0) by (intros ->; unfold s in S; rewrite Z.abs_0, Z.log2_nonpos in S by lia; lia).
    set (m := 2 ^ s). assert (M : 0 < m) by (apply Z.pow_pos_nonneg; lia).
    pose proof (Z.div_mod n m ltac:(lia)) as DM. pose proof (Z.mod_pos_bound n m M) as RB. set (q := n / m) in *. set (r := n mod m) in *.
    set (y := if 2 * r <? m then q * m else if m <? 2 * r then (q + 1) * m else if Z.even q then q * m else (q + 1) * m).
    assert (Y : (y = q * m \/ y = (q + 1) * m) /\ forall k, Z.abs (n - y) <= Z.abs (n - k * m)).
    { assert (G : forall k, k <= q \/ q + 1 <= k) by lia.
      unfold y. destruct (Z.ltb_spec (2 * r) m); [|destruct (Z.ltb_spec m (2 * r)); [|destruct (Z.even q)]]; (split; [auto|]); intro k; (destruct (G k) as [K|K]; [assert (k * m <= q * m) by (apply Z.mul_le_mono_nonneg_r; lia)|assert ((q + 1) * m <= k * m) by (apply Z.mul_le_mono_nonneg_r; lia)]); lia. }
    fold y. clearbody y. destruct Y as [Y1 Y2].
    assert (L : 2 ^ (p + s - 1) <= Z.abs n < 2 ^ (p + s)).
    { pose proof (Z.log2_spec (Z.abs n) ltac:(lia)) as [A B]. unfold s. replace (p + (Z.log2 (Z.abs n) + 1 - p) - 1) with (Z.log2 (Z.abs n)) by lia. replace (p + (Z.log2 (Z.abs n) + 1 - p)) with (Z.succ (Z.log2 (Z.abs n))) by lia. lia. }
    assert (E1 : 2 ^ (p + s - 1) = 2 ^ (p - 1) * m) by (unfold m; rewrite <- Z.pow_add_r by lia; f_equal; lia).
    assert (E2 : 2 ^ (p + s) = 2 ^ p * m) by (unfold m; rewrite <- Z.pow_add_r by lia; f_equal; lia).
    assert (PP : 0 < 2 ^ (p - 1)) by (apply Z.pow_pos_nonneg; lia).
    assert (P2 : 2 ^ p = 2 * 2 ^ (p - 1)) by (rewrite <- Z.pow_succ_r by lia; f_equal; lia).
    rewrite E1, E2 in L.
    assert (QB : - 2 ^ p <= q <= 2 ^ p - 1) by (split; nia).
    split.
    + assert (H : exists k, y = k * m /\ Z.abs k <= 2 ^ p) by (destruct Y1 as [-> | ->]; [exists q|exists (q + 1)]; split; auto; lia).
      destruct H as (k & -> & K). destruct (Z.eq_dec (Z.abs k) (2 ^ p)) as [K'|K'].
      * exists (Z.sgn k * 2 ^ (p - 1)), (s + 1). split; [|split; [|lia]].
        { rewrite Z.pow_add_r by lia. fold m. rewrite <- (Z.abs_sgn k) at 1. rewrite K', P2. ring. }
        { rewrite Z.abs_mul. assert (Z.abs (Z.sgn k) <= 1) by (destruct k; cbn; lia). rewrite (Z.abs_eq (2 ^ (p - 1))) by lia. nia. }
      * exists k, s. split; [reflexivity|]. split; lia.
    + intros z (k & e & -> & K & E). destruct (Z.le_gt_cases s e) as [SE|SE].
      * replace (k * 2 ^ e) with ((k * 2 ^ (e - s)) * m); [apply Y2|]. unfold m. rewrite <- Z.mul_assoc, <- Z.pow_add_r by lia. do 2 f_equal. lia.
      * assert (ZB : Z.abs (k * 2 ^ e) <= 2 ^ (p - 1) * m).
        { rewrite Z.abs_mul, (Z.abs_eq (2 ^ e)) by (apply Z.pow_nonneg; lia).
          assert (2 ^ e <= 2 ^ (s - 1)) by (apply Z.pow_le_mono_r; lia). assert (m = 2 * 2 ^ (s - 1)) by (unfold m; rewrite <- Z.pow_succ_r by lia; f_equal; lia). assert (0 < 2 ^ e) by (apply Z.pow_pos_nonneg; lia). nia. }
        destruct (Z.le_gt_cases 0 n) as [N0|N0].
        { pose proof (Y2 (2 ^ (p - 1))). lia. }
        { pose proof (Y2 (- 2 ^ (p - 1))). lia. }
Qed.
Lemma round_bits_exact : forall p n, 0 < p -> Z.abs n <= 2 ^ p -> round_bits p n = n.
Proof.
  intros p n P B. destruct (round_bits_nearest p n P) as [_ N].
  assert (H : has_bits p n).
  { destruct (Z.eq_dec (Z.abs n) (2 ^ p)) as [E|E]; [|exists n, 0; cbn; lia].
    exists (Z.sgn n * 2 ^ (p - 1)), 1. assert (P2 : 2 ^ p = 2 * 2 ^ (p - 1)) by (rewrite <- Z.pow_succ_r by lia; f_equal; lia). assert (0 < 2 ^ (p - 1)) by (apply Z.pow_pos_nonneg; lia).
    split; [|split; [|lia]].
    - rewrite <- (Z.abs_sgn n) at 1. rewrite E, P2, Z.pow_1_r. ring.
    - rewrite Z.abs_mul. assert (Z.abs (Z.sgn n) <= 1) by (destruct n; cbn; lia). rewrite (Z.abs_eq (2 ^ (p - 1))) by lia. nia. }
  specialize (N n H). lia.
Qed.
Lemma round_bits_error : forall p n, 0 < p -> 2 ^ p * Z.abs (n - round_bits p n) <= Z.abs n.
Proof.
  intros p n P. destruct (Z.le_gt_cases (Z.log2 (Z.abs n) + 1 - p) 0) as [S|S].
  { unfold round_bits. destruct (Z.leb_spec (Z.log2 (Z.abs n) + 1 - p) 0); [|lia]. rewrite Z.sub_diag. cbn [Z.abs]. lia. }
  assert (N : n <> 0) by (intros ->; rewrite Z.abs_0, Z.log2_nonpos in S by lia; lia).
  unfold round_bits. destruct (Z.leb_spec (Z.log2 (Z.abs n) + 1 - p) 0) as [S'|_]; [lia|].
  set (s := Z.log2 (Z.abs n) + 1 - p) in *. set (m := 2 ^ s). assert (M : 0 < m) by (apply Z.pow_pos_nonneg; lia).
  pose proof (Z.div_mod n m ltac:(lia)) as DM. pose proof (Z.mod_pos_bound n m M) as RB. set (q := n / m) in *. set (r := n mod m) in *.
  assert (L : 2 ^ p * m <= 2 * Z.abs n).
  { unfold m. rewrite <- Z.pow_add_r by lia. replace (p + s) with (Z.succ (Z.log2 (Z.abs n))) by (unfold s; lia). rewrite Z.pow_succ_r by (apply Z.log2_nonneg). pose proof (Z.log2_spec (Z.abs n) ltac:(lia)). lia. }
  assert (PP : 0 < 2 ^ p) by (apply Z.pow_pos_nonneg; lia).
  assert (H : 2 * Z.abs (n - (if 2 * r <? m then q * m else if m <? 2 * r then (q + 1) * m else if Z.even q then q * m else (q + 1) * m)) <= m).
  { destruct (Z.ltb_spec (2 * r) m); [|destruct (Z.ltb_spec m (2 * r)); [|destruct (Z.even q)]]; lia. }
  nia.
Qed.

(** * The classes *)
(** A grid of 2, 3 or 4 dimensions is made from every array of a usual type, and its class is that of the
    type when it is float64, float32, int8 or uint8; other types are refused. *)
Theorem C108_class : forall m dims temporal a b, nth_error m a = Some b ->
  (b_type b = OtherType -> new_grid m dims temporal a = Throw "ValueError") /\
  (b_type b <> OtherType -> (dims = 2 /\ temporal = false \/ dims = 3 \/ dims = 4) ->
     exists m' g, new_grid m dims temporal a = Ok (m', g) /\ c_time (g_class g) = temporal /\ c_dims (g_class g) = dims /\
       (stored_as_is (b_type b) -> c_type (g_class g) = b_type b) /\
       (b_type b = I16 \/ b_type b = U16 \/ b_type b = I32 \/ b_type b = U32 -> c_type (g_class g) = F32) /\
       (b_type b = I64 \/ b_type b = U64 -> c_type (g_class g) = F64)) /\
  (b_type b <> OtherType -> dims = 2 -> temporal = true -> new_grid m dims temporal a = Throw "AttributeError").
Proof.
  intros m dims temporal a b B. unfold new_grid. rewrite B. split; [intros ->; reflexivity|]. split.
  - intros T D.
    assert (C : exists c, grid_class dims temporal (b_type b) = Ok c /\ c_time c = temporal /\ c_dims c = dims /\
       (stored_as_is (b_type b) -> c_type c = b_type b) /\ (b_type b = I16 \/ b_type b = U16 \/ b_type b = I32 \/ b_type b = U32 -> c_type c = F32) /\ (b_type b = I64 \/ b_type b = U64 -> c_type c = F64)).
    { destruct D as [(-> & ->)|[-> | ->]]; [|destruct temporal|destruct temporal]; destruct (b_type b); try congruence; (eexists; split; [reflexivity|]; repeat split; unfold stored_as_is; intuition congruence). }
    destruct C as (c & -> & H). cbn [obind]. destruct (_ && _)%bool; do 2 eexists; (split; [reflexivity|]); exact H.
  - intros T -> ->. destruct (b_type b); try congruence; reflexivity.
Qed.
Print Assumptions C108_class.

Lemma new_grid_array : forall m dims temporal a b m' g, nth_error m a = Some b -> new_grid m dims temporal a = Ok (m', g) ->
  exists c, grid_class dims temporal (b_type b) = Ok c /\ g_class g = c /\
   ((dtype_eqb (b_type b) (c_type c) && b_native b)%bool = true /\ m' = m /\ g_array g = a \/
    (dtype_eqb (b_type b) (c_type c) && b_native b)%bool = false /\ m' = (m ++ [Buffer (c_type c) true (converted (c_type c) (b_data b))])%list /\ g_array g = length m).
Proof.
  intros m dims temporal a b m' g B H. unfold new_grid in H. rewrite B in H. destruct (grid_class dims temporal (b_type b)) as [c| |]; cbn [obind] in H; try discriminate. exists c. split; [reflexivity|].
  destruct (_ && _)%bool; injection H as <- <-; cbn [g_class g_array]; (split; [reflexivity|]); [left|right]; auto.
Qed.
Lemma class_type : forall dims temporal t c, dims = 2 \/ dims = 3 \/ dims = 4 -> grid_class dims temporal t = Ok c ->
  c_type c = match t with F64 | I64 | U64 => F64 | F32 | I32 | U32 | I16 | U16 => F32 | I8 => I8 | U8 => U8 | OtherType => OtherType end.
Proof.
  intros dims temporal t c D H. destruct D as [->|[-> | ->]]; destruct temporal, t; try (discriminate H); injection H as <-; reflexivity.
Qed.
Lemma set_nth_same : forall A (l : list A) n v, (n < length l)%nat -> nth_error (set_nth n v l) n = Some v.
Proof. induction l as [|x l IH]; intros [|n] v L; cbn [length set_nth nth_error] in *; try lia; auto. apply IH. lia. Qed.
Lemma set_nth_other : forall A (l : list A) n k v, n <> k -> nth_error (set_nth n v l) k = nth_error l k.
Proof. induction l as [|x l IH]; intros [|n] [|k] v L; cbn [set_nth nth_error]; try lia; auto. Qed.
Lemma write_spec : forall m a c k, nth_error (write m a c) k = if Nat.eqb a k then option_map (fun b => Buffer (b_type b) (b_native b) c) (nth_error m a) else nth_error m k.
Proof.
  intros m a c k. unfold write. destruct (nth_error m a) as [b|] eqn:B; destruct (Nat.eqb_spec a k) as [<-|N]; cbn [option_map]; auto.
  - apply set_nth_same. apply nth_error_Some. congruence.
  - apply set_nth_other. exact N.
Qed.

(** * The values *)
(** The grid holds the numbers of the array: all of them unchanged for floats and for integers of 8 or 16
    bits; those of at most 2^24 (int32, uint32) or 2^53 (int64, uint64) in absolute value; and otherwise
    the nearest number of 24 or 53 bits, at a relative distance of at most 2^-24 or 2^-53. *)
Theorem C108_values : forall m dims temporal a b m' g, dims = 2 \/ dims = 3 \/ dims = 4 -> nth_error m a = Some b -> well_typed b ->
  new_grid m dims temporal a = Ok (m', g) ->
  exists held, grid_array m' g = Some held /\
    (stored_as_is (b_type b) \/ b_type b = I16 \/ b_type b = U16 -> numbers held = numbers (b_data b)) /\
    forall p, (b_type b = I32 \/ b_type b = U32) /\ p = 24 \/ (b_type b = I64 \/ b_type b = U64) /\ p = 53 ->
      exists l l', b_data b = Ints l /\ numbers held = map (fun n => Some (inject_Z n)) l' /\
        Forall2 (fun n n' => nearest_bits p n n' /\ (Z.abs n <= 2 ^ p -> n' = n) /\ 2 ^ p * Z.abs (n - n') <= Z.abs n) l l'.
Proof.
  intros m dims temporal a b m' g D B W H. destruct (new_grid_array _ _ _ _ _ _ _ B H) as (c & C & GC & A). apply (class_type _ _ _ _ D) in C.
  assert (R : forall p l, 0 < p -> Forall2 (fun n n' => nearest_bits p n n' /\ (Z.abs n <= 2 ^ p -> n' = n) /\ 2 ^ p * Z.abs (n - n') <= Z.abs n) l (map (round_bits p) l)).
  { intros p l P. induction l as [|n l IH]; cbn [map]; constructor; [|exact IH]. split; [apply round_bits_nearest; exact P|]. split; [intro; apply round_bits_exact; assumption|apply round_bits_error; exact P]. }
  assert (X : forall p (l : list Z), 0 < p -> (forall n, In n l -> Z.abs n <= 2 ^ p) -> map (fun n => Some (inject_Z (round_bits p n))) l = map (fun n => Some (inject_Z n)) l).
  { intros p l P L. apply map_ext_in. intros n I. rewrite round_bits_exact by auto. reflexivity. }
  destruct b as [t nat d]. unfold well_typed in W. cbn [b_type b_native b_data] in *.
  destruct A as [(Q & -> & A)|(Q & -> & A)]; (eexists; split; [unfold grid_array; rewrite A; first [rewrite B|rewrite nth_error_app2, Nat.sub_diag by lia]; cbn [nth_error option_map]; reflexivity|]); cbn [b_data].
  - split; [reflexivity|]. intros p [(T & ->)|(T & ->)]; exfalso; destruct T; subst t; rewrite C in Q; discriminate Q.
  - rewrite C. split.
    + intro T. destruct d as [l|l]; [|reflexivity]. destruct W as (lo & hi & E & W).
      destruct T as [T|[-> | ->]].
      * destruct T as [-> |[-> |[-> | ->]]]; try discriminate E; reflexivity.
      * cbn [int_range] in E. injection E as <- <-. cbn [converted numbers]. apply X; [lia|]. intros n I. specialize (W n I). cbn. lia.
      * cbn [int_range] in E. injection E as <- <-. cbn [converted numbers]. apply X; [lia|]. intros n I. specialize (W n I). cbn. lia.
    + intros p T. destruct d as [l|l]; [|exfalso; destruct T as [(T & ->)|(T & ->)]; destruct T, W; congruence].
      exists l, (map (round_bits p) l). split; [reflexivity|]. split; [|apply R; destruct T as [[_ ->]|[_ ->]]; lia].
      rewrite map_map. destruct T as [(T & ->)|(T & ->)]; destruct T; subst t; reflexivity.
Qed.
Print Assumptions C108_values.
(** The values of an array of 32 or 64 bits integers are not always those of the grid: two different
    values become equal. *)
Theorem C108_values_refuted : forall dims temporal, dims = 2 /\ temporal = false \/ dims = 3 \/ dims = 4 ->
  (exists m' g, new_grid [Buffer I32 true (Ints [16777216; 16777217])] dims temporal 0 = Ok (m', g) /\
     grid_array m' g = Some (Reals [Some (inject_Z 16777216); Some (inject_Z 16777216)])) /\
  (exists m' g, new_grid [Buffer I64 true (Ints [9007199254740992; 9007199254740993])] dims temporal 0 = Ok (m', g) /\
     grid_array m' g = Some (Reals [Some (inject_Z 9007199254740992); Some (inject_Z 9007199254740992)])) /\
  well_typed (Buffer I32 true (Ints [16777216; 16777217])) /\ well_typed (Buffer I64 true (Ints [9007199254740992; 9007199254740993])).
Proof.
  intros dims temporal D. split; [|split].
  - destruct D as [(-> & ->)|[-> | ->]]; [|destruct temporal|destruct temporal]; do 2 eexists; split; reflexivity.
  - destruct D as [(-> & ->)|[-> | ->]]; [|destruct temporal|destruct temporal]; do 2 eexists; split; reflexivity.
  - split; (do 2 eexists; split; [reflexivity|]); intros n [<- |[<- |[]]]; lia.
Qed.

(** * The memory *)
(** A grid made from a float64, float32, int8 or uint8 array in the byte order of the machine is a view of
    this array: whatever is written later in one is read in the other.  A grid made from any other array
    is a copy: what is written in one never changes the other. *)
Theorem C108_memory : forall m dims temporal a b m' g writes, dims = 2 \/ dims = 3 \/ dims = 4 -> nth_error m a = Some b ->
  new_grid m dims temporal a = Ok (m', g) ->
  let after := fold_left (fun m (w : bool * contents) => write m (if fst w then a else g_array g) (snd w)) writes m' in
  let last (who : bool) (first : contents) := fold_left (fun c (w : bool * contents) => if Bool.eqb (fst w) who then snd w else c) writes first in
  (stored_as_is (b_type b) /\ b_native b = true -> grid_array after g = option_map b_data (nth_error after a)) /\
  (~ (stored_as_is (b_type b) /\ b_native b = true) ->
     exists held, grid_array m' g = Some held /\ grid_array after g = Some (last false held) /\ option_map b_data (nth_error after a) = Some (last true (b_data b))).
Proof.
  intros m dims temporal a b m' g writes D B H. cbv zeta. destruct (new_grid_array _ _ _ _ _ _ _ B H) as (c & C & GC & A). pose proof C as CE. apply (class_type _ _ _ _ D) in C.
  assert (La : (a < length m)%nat) by (apply nth_error_Some; congruence).
  split.
  - intros (T & N). destruct A as [(Q & -> & A)|(Q & -> & A)].
    + unfold grid_array. rewrite A. reflexivity.
    + exfalso. rewrite N, C in Q. destruct T as [T|[T|[T|T]]]; rewrite T in Q; discriminate Q.
  - intro T. destruct A as [(Q & -> & A)|(Q & -> & A)].
    + exfalso. apply andb_prop in Q as [Q N]. apply T. split; [|exact N]. rewrite C in Q. unfold stored_as_is. destruct (b_type b); try discriminate Q; auto.
      exfalso. clear -CE. unfold grid_class in CE. discriminate CE.
    + unfold grid_array in *. rewrite A in *. clear A Q H GC T.
      set (held := converted (c_type c) (b_data b)). exists held. split; [rewrite nth_error_app2, Nat.sub_diag by lia; reflexivity|].
      assert (E1 : option_map b_data (nth_error (m ++ [Buffer (c_type c) true held])%list (length m)) = Some held) by (rewrite nth_error_app2, Nat.sub_diag by lia; reflexivity).
      assert (E2 : option_map b_data (nth_error (m ++ [Buffer (c_type c) true held])%list a) = Some (b_data b)) by (rewrite nth_error_app1, B by lia; reflexivity).
      revert E1 E2. generalize (m ++ [Buffer (c_type c) true held])%list. generalize held (b_data b). clear held B C. induction writes as [|[who d] writes IH]; intros held data mm E1 E2; cbn [fold_left]; [auto|].
      cbn [fst snd]. apply IH; rewrite write_spec; destruct who; cbn [Bool.eqb].
      * destruct (Nat.eqb_spec a (length m)); [lia|exact E1].
      * rewrite Nat.eqb_refl. destruct (nth_error mm (length m)); [reflexivity|discriminate].
      * rewrite Nat.eqb_refl. destruct (nth_error mm a); [reflexivity|discriminate].
      * destruct (Nat.eqb_spec (length m) a); [lia|exact E2].
Qed.
Print Assumptions C108_memory.

(** * The functions *)
(** Each function, given a grid, runs the code compiled for its type, its dimensions and its kind of last
    axes, or refuses it: the grids of floats are accepted by all the functions of their dimensions; the
    grids of 8 bits integers by bivariate only. *)
Definition has_dims (o : operation) (d : Z) : Prop :=
  match o with Bivariate => d = 2 | Trivariate => d = 3 | Quadrivariate => d = 4 | Bicubic | Spline | Loess => True end.
Theorem C108_functions_partial : forall o dims temporal t g, dims = 2 \/ dims = 3 \/ dims = 4 -> grid_class dims temporal t = Ok g ->
  (has_dims o dims /\ (o = Bivariate \/ c_type g = F64 \/ c_type g = F32) <-> run_on o g = Ok g) /\
  (run_on o g = Ok g \/ run_on o g = Throw "TypeError" \/ run_on o g = Throw "AttributeError").
Proof.
  intros o dims temporal t g D H. pose proof (class_type _ _ _ _ D H) as C.
  destruct D as [->|[-> | ->]]; destruct temporal, t; try (discriminate H); injection H as <-; destruct o; cbn [has_dims c_type]; (split; [split; [intros (A & B); try reflexivity; exfalso; first [discriminate A|destruct B as [B|[B|B]]; discriminate B]|intro R; first [discriminate R|split; [first [reflexivity|exact I]|auto]]]|auto]).
Qed.
(** Refuted: a grid of 8 bits integers in three or four dimensions is made without error, and no function
    accepts it; in two dimensions, bicubic and loess do not. *)
Theorem C108_functions_refuted : forall t, t = I8 \/ t = U8 ->
  (forall dims temporal, dims = 3 \/ dims = 4 -> exists g, grid_class dims temporal t = Ok g /\ forall o, run_on o g = Throw "TypeError") /\
  (exists g, grid_class 2 false t = Ok g /\ run_on Bivariate g = Ok g /\ run_on Bicubic g = Throw "AttributeError" /\ run_on Spline g = Throw "AttributeError" /\ run_on Loess g = Throw "AttributeError").
Proof.
  intros t T. split.
  - intros dims temporal D. destruct T, D; subst; destruct temporal; (eexists; split; [reflexivity|]; intros []; reflexivity).
  - destruct T; subst; eexists; repeat split; reflexivity.
Qed.
