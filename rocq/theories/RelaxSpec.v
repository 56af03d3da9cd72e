(** Specification vocabulary for the relaxation. *)
From Verif Require Import Base RelaxModel.
Open Scope Z_scope.

(** A cell of the grid. *)
Definition inside (nx ny : nat) (p : cell) : Prop := (fst p < nx)%nat /\ (snd p < ny)%nat.
(** Grids on which the relaxation reads only cells of the grid: at least two columns, and
    two rows (one is enough on a circle). *)
Definition valid_shape (nx ny : nat) (circle : bool) : Prop :=
  (2 <= ny)%nat /\ ((2 <= nx)%nat \/ (circle = true /\ (1 <= nx)%nat)).
(** The neighbour relation, independently of the way the indexes are computed: west and
    east neighbours (wrapping around on a circle, mirrored otherwise), south and north
    neighbours (mirrored). *)
Definition west (nx : nat) (circle : bool) (p : cell) : cell :=
  match fst p with S i => (i, snd p) | O => if circle then ((nx - 1)%nat, snd p) else (1%nat, snd p) end.
Definition east (nx : nat) (circle : bool) (p : cell) : cell :=
  if Nat.eqb (S (fst p)) nx then (if circle then (0%nat, snd p) else ((nx - 2)%nat, snd p)) else (S (fst p), snd p).
Definition south (p : cell) : cell := match snd p with S j => (fst p, j) | O => (fst p, 1%nat) end.
Definition north (ny : nat) (p : cell) : cell := if Nat.eqb (S (snd p)) ny then (fst p, (ny - 2)%nat) else (fst p, S (snd p)).
Definition mean4 (nx ny : nat) (circle : bool) (g : grid) (p : cell) : Q :=
  ((g (west nx circle p) + g (east nx circle p) + g (south p) + g (north ny p)) / inject_Z 4)%Q.
(** All the cells of the grid lie in [lo, hi]. *)
Definition within (nx ny : nat) (lo hi : Q) (g : grid) : Prop := forall p, inside nx ny p -> (lo <= g p <= hi)%Q.

(** An execution of several threads: the instructions of each thread occur in program
    order, arbitrarily interleaved. *)
Definition of_thread (t : nat) (sched : list (nat * micro)) : list micro :=
  map snd (filter (fun e => Nat.eqb (fst e) t) sched).
Definition interleaving (progs : nat -> list micro) (sched : list (nat * micro)) : Prop :=
  forall t, of_thread t sched = progs t.

(** One coloured sweep by [n] threads from grid [g], under some interleaving: the final
    grid and the largest of the maximum residuals of the threads. *)
Definition par_calculate (nx ny : nat) (circle : bool) (relax : Q) (mask : cell -> bool) (n red_black : nat) (g g' : grid) (m : Q) : Prop :=
  exists progs sched l',
    (forall t, (t < n)%nat -> thread_program nx ny circle mask red_black n t = Ok (progs t)) /\
    (forall t, (n <= t)%nat -> progs t = []) /\
    interleaving progs sched /\
    run_schedule relax sched (g, fun _ => TLocal [] 0%Q) = (g', l') /\
    m = max_element (tmax (l' 0%nat)) (map (fun t => tmax (l' t)) (seq 1 (n - 1))).
Definition par_sweep (nx ny : nat) (circle : bool) (relax : Q) (mask : cell -> bool) (n first : nat) (g g' : grid) (m : Q) : Prop :=
  exists g1 m1 m2, par_calculate nx ny circle relax mask n first g g1 m1 /\
    par_calculate nx ny circle relax mask n (1 - first) g1 g' m2 /\
    m = if Nat.eqb first 0 then smax m1 m2 else smax m2 m1.
(** The iterations, with any interleaving in each sweep. *)
Inductive par_iterate (step : grid -> grid -> Q -> Prop) (eps : Q) : nat -> grid -> nat -> Q -> grid -> nat -> Q -> Prop :=
| PI_end : forall g it m, par_iterate step eps 0 g it m g it m
| PI_stop : forall k g it m g' m', step g g' m' -> (m' < eps)%Q -> par_iterate step eps (S k) g it m g' (S it) m'
| PI_go : forall k g it m g1 m1 g' it' m', step g g1 m1 -> ~ (m1 < eps)%Q ->
    par_iterate step eps k g1 (S it) m1 g' it' m' -> par_iterate step eps (S k) g it m g' it' m'.
