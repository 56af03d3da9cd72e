(** Model of the parallel driver [detail::dispatch]
    (include/pyinterp/detail/thread.hpp) and of the workers that the vectorised
    functions give it (e.g. bivariate.hpp:131-151, trivariate.hpp, rtree.hpp,
    geodetic/coordinates.hpp): each worker runs a loop over its range, storing one
    element of the result per iteration, and records in a shared variable the
    exception that stops its loop. *)
From Verif Require Import Base.
Open Scope Z_scope.

(** thread.hpp:37-42: the ranges given to the threads. *)
Fixpoint launch (k : nat) (start shift size : Z) : list (Z * Z) :=
  match k with
  | O => [(start, size)]
  | S k' => (start, start + shift) :: launch k' (start + shift) shift size
  end.

(** thread.hpp:20-42; [hardware] is [std::thread::hardware_concurrency()], which may
    be 0.  With 0 threads [size / num_threads] divides by zero. *)
Definition dispatch_ranges (size num_threads hardware : Z) : outcome (list (Z * Z)) :=
  if num_threads =? 1 then Ok [(0, size)]
  else
    let n := if num_threads =? 0 then hardware else num_threads in
    if n =? 0 then UB "division by zero"
    else Ok (launch (Z.to_nat (n - 1)) 0 (Z.quot size n) size).

Section Workers.
  (** Value computed for one element, or the exception raised. *)
  Context {V : Type}.
  Variable body : Z -> V + string.

  (** A thread: still running at an index, or finished. *)
  Inductive tstate := Run (cur : Z) | Done.

  (** [spawned]: number of threads created so far by the loop of thread.hpp:37-42;
      [threads]: range and state of every thread; [out]: the result array ([None]:
      not written); [except]: the shared exception pointer. *)
  Record config := Config {
    spawned : nat;
    threads : list ((Z * Z) * tstate);
    out : list (option V);
    except : option string }.

  Definition start_config (size : Z) (ranges : list (Z * Z)) : config :=
    Config 0 (map (fun r => (r, Run (fst r))) ranges) (repeat None (Z.to_nat size)) None.

  (** One atomic action of the program: the main thread creates the next thread, or a
      created thread does one iteration (stores a value, or catches an exception and
      stops), or leaves its loop. *)
  Inductive step : config -> config -> Prop :=
  | StepSpawn : forall k ts o ex, (k < length ts)%nat ->
      step (Config k ts o ex) (Config (S k) ts o ex)
  | StepWrite : forall k ts o ex i s e cur v, (i < k)%nat ->
      nth_error ts i = Some ((s, e), Run cur) -> cur < e -> body cur = inl v ->
      step (Config k ts o ex) (Config k (set_nth i ((s, e), Run (cur + 1)) ts) (set_nth (Z.to_nat cur) (Some v) o) ex)
  | StepCatch : forall k ts o ex i s e cur w, (i < k)%nat ->
      nth_error ts i = Some ((s, e), Run cur) -> cur < e -> body cur = inr w ->
      step (Config k ts o ex) (Config k (set_nth i ((s, e), Done) ts) o (Some w))
  | StepExit : forall k ts o ex i s e cur, (i < k)%nat ->
      nth_error ts i = Some ((s, e), Run cur) -> e <= cur ->
      step (Config k ts o ex) (Config k (set_nth i ((s, e), Done) ts) o ex).

  Inductive steps : config -> config -> Prop :=
  | StepsRefl : forall c, steps c c
  | StepsCons : forall a b c, step a b -> steps b c -> steps a c.

  (** All threads created and joined (thread.hpp:44-46). *)
  Definition finished (c : config) : Prop :=
    spawned c = length (threads c) /\ forall i r st, nth_error (threads c) i = Some (r, st) -> st = Done.

  (** What the vectorised function does next (e.g. bivariate.hpp:153-157). *)
  Definition answer (c : config) : outcome (list (option V)) :=
    match except c with
    | Some w => Throw w
    | None => Ok (out c)
    end.
End Workers.
Arguments Config {V}.
