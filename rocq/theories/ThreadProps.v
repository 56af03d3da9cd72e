(** Theorems about the parallel driver (properties C33 and C34). *)
From Verif Require Import Base BaseProofs ThreadModel ThreadProofs.
Open Scope Z_scope.

(** * C33 partition of the work *)
(** Consecutive ranges: the first starts at 0, each one starts where the previous ends,
    the last ends at [size]; so each element belongs to exactly one of them. *)
Theorem C33_partition : forall size num_threads hardware, 0 <= size -> 0 <= num_threads -> 0 < hardware ->
  exists l, dispatch_ranges size num_threads hardware = Ok l /\
    zlen l = (if num_threads =? 0 then hardware else num_threads) /\
    (forall s e, In (s, e) l -> 0 <= s <= e /\ e <= size) /\
    (forall x, 0 <= x < size -> exists! i, exists s e, nth_error l i = Some (s, e) /\ s <= x < e).
Proof.
  intros size num hw Hs Hn Hh.
  assert (E : exists l, dispatch_ranges size num hw = Ok l /\ zlen l = (if num =? 0 then hw else num)).
  { unfold dispatch_ranges. destruct (Z.eqb_spec num 1) as [->|N1]; [eexists; split; reflexivity|].
    set (n := if num =? 0 then hw else num). assert (0 < n) by (unfold n; destruct (Z.eqb_spec num 0); lia).
    replace (n =? 0) with false by lia. eexists. split; [reflexivity|]. unfold zlen. rewrite launch_length. lia. }
  destruct E as (l & E & L). exists l. split; [exact E|]. split; [exact L|].
  pose proof (dispatch_ranges_ok size num hw l Hs Hn ltac:(lia) E) as C. split.
  - intros s e Hin. apply In_nth_error in Hin. destruct Hin as [i N]. eapply chained_bounds; eassumption.
  - intros x Hx. destruct (chained_cover _ _ _ _ C Hx) as (i & s & e & N & B). exists i. split; [exists s, e; auto|].
    intros j (s' & e' & N' & B'). destruct (Nat.lt_trichotomy i j) as [D|[D|D]]; [exfalso|exact D|exfalso].
    + pose proof (chained_order _ _ _ _ _ _ _ _ _ C N N' D). lia.
    + pose proof (chained_order _ _ _ _ _ _ _ _ _ C N' N D). lia.
Qed.
Print Assumptions C33_partition.

(** When the number of processors is unknown ([hardware_concurrency() = 0]) the default
    number of threads divides by zero. *)
Theorem C33_no_hardware_refuted : forall size, exists w, dispatch_ranges size 0 0 = UB w.
Proof. intro. eexists. reflexivity. Qed.

Example C33_ex : dispatch_ranges 10 4 8 = Ok [(0, 2); (2, 4); (4, 6); (6, 10)] /\
  dispatch_ranges 2 4 8 = Ok [(0, 0); (0, 0); (0, 0); (0, 2)] /\ dispatch_ranges 7 0 2 = Ok [(0, 3); (3, 7)].
Proof. repeat split; reflexivity. Qed.

(** * C34 independence of the schedule *)
(** Whatever the number of threads and the interleaving of their actions: if no element
    raises an exception, the result is the array of the values of the elements. *)
Theorem C34_result : forall (V : Type) (body : Z -> V + string) size num_threads hardware l c,
  0 <= size -> 0 <= num_threads -> 0 < hardware ->
  dispatch_ranges size num_threads hardware = Ok l ->
  steps body (start_config size l) c -> finished c ->
  (forall i, 0 <= i < size -> exists v, body i = inl v) ->
  exists vs, answer c = Ok (map Some vs) /\ length vs = Z.to_nat size /\
    forall i, 0 <= i < size -> exists v, nth_error vs (Z.to_nat i) = Some v /\ body i = inl v.
Proof.
  intros V body size num hw l c Hs Hn Hh E St Fin Good.
  apply (finished_ok body size c); try assumption.
  eapply inv_steps; [exact St|]. apply inv_start. eapply dispatch_ranges_ok; [exact Hs|exact Hn| |exact E]. lia.
Qed.
Print Assumptions C34_result.

(** If some element raises an exception, the call raises one, namely that of the first
    failing element of one of the ranges. *)
Theorem C34_error : forall (V : Type) (body : Z -> V + string) size num_threads hardware l c,
  0 <= size -> 0 <= num_threads -> 0 < hardware ->
  dispatch_ranges size num_threads hardware = Ok l ->
  steps body (start_config size l) c -> finished c ->
  (exists i w, 0 <= i < size /\ body i = inr w) ->
  exists w s e j, answer c = Throw w /\ In (s, e) l /\ s <= j < e /\ body j = inr w /\
    forall i, s <= i < j -> exists v, body i = inl v.
Proof.
  intros V body size num hw l c Hs Hn Hh E St Fin Bad.
  assert (C : chained 0 size l) by (eapply dispatch_ranges_ok; [exact Hs|exact Hn| |exact E]; lia).
  assert (I : inv body size c) by (eapply inv_steps; [exact St|]; apply inv_start; assumption).
  destruct (finished_throw body size c I Fin Bad) as (w & k & s & e & j & A & N & F1 & F2 & F3).
  exists w, s, e, j. split; [exact A|]. split; [|auto].
  assert (M : map fst (threads c) = l).
  { clear -St. assert (G : forall a b, steps body a b -> map fst (threads b) = map fst (threads a)).
    { induction 1; [reflexivity|]. rewrite IHsteps. destruct H; cbn [threads]; try reflexivity; erewrite map_fst_set by eassumption; reflexivity. }
    rewrite (G _ _ St). unfold start_config. cbn [threads]. rewrite map_map. cbn. apply map_id. }
  rewrite M in N. eapply nth_error_In; eassumption.
Qed.
Print Assumptions C34_error.

(** Every schedule ends: from a reachable state there is a step unless all threads are
    finished, and no schedule is longer than a fixed bound. *)
Theorem C34_terminates : forall (V : Type) (body : Z -> V + string) size num_threads hardware l,
  0 <= size -> 0 <= num_threads -> 0 < hardware ->
  dispatch_ranges size num_threads hardware = Ok l ->
  (forall c, steps body (start_config size l) c -> finished c \/ exists c', step body c c') /\
  (exists bound, forall n c, nsteps body n (start_config size l) c -> (n <= bound)%nat).
Proof.
  intros V body size num hw l Hs Hn Hh E.
  assert (I : inv body size (start_config size l)).
  { apply inv_start. eapply dispatch_ranges_ok; [exact Hs|exact Hn| |exact E]. lia. }
  split.
  - intros c St. apply (progress body size). eapply inv_steps; eassumption.
  - exists (measure (start_config (V := V) size l)). intros n c N. pose proof (nsteps_bound body size n _ _ N I). lia.
Qed.
Print Assumptions C34_terminates.

(** No two threads are ever about to store into the same element of the result. *)
Theorem C34_race_free : forall (V : Type) (body : Z -> V + string) size num_threads hardware l c,
  0 <= size -> 0 <= num_threads -> 0 < hardware ->
  dispatch_ranges size num_threads hardware = Ok l ->
  steps body (start_config size l) c ->
  forall i j r r' cur cur', i <> j ->
    nth_error (threads c) i = Some (r, Run cur) -> nth_error (threads c) j = Some (r', Run cur') ->
    cur < snd r -> cur' < snd r' -> cur <> cur'.
Proof.
  intros V body size num hw l c Hs Hn Hh E St i j [s e] [s' e'] cur cur' Hij N N' L L'. cbn [snd] in *.
  eapply (race_free body size); try eassumption.
  eapply inv_steps; [exact St|]. apply inv_start. eapply dispatch_ranges_ok; [exact Hs|exact Hn| |exact E]. lia.
Qed.
Print Assumptions C34_race_free.

(** But the shared exception pointer is not protected: as soon as elements of two ranges
    fail, two threads can be about to assign it at the same time. *)
Theorem C34_exception_race_refuted : exists (body : Z -> Z + string) l c i j ri rj ci cj,
  dispatch_ranges 2 2 8 = Ok l /\ steps body (start_config 2 l) c /\ i <> j /\
  nth_error (threads c) i = Some (ri, Run ci) /\ nth_error (threads c) j = Some (rj, Run cj) /\
  (i < spawned c)%nat /\ (j < spawned c)%nat /\
  (exists w, body ci = inr w) /\ (exists w, body cj = inr w) /\ ci < snd ri /\ cj < snd rj.
Proof.
  exists (fun _ => inr "out of bounds"%string), [(0, 1); (1, 2)].
  exists (Config 2 [((0, 1), Run 0); ((1, 2), Run 1)] [None; None] None), 0%nat, 1%nat, (0, 1), (1, 2), 0, 1.
  split; [reflexivity|]. split; [|cbn; repeat split; eauto; lia].
  eapply StepsCons; [apply StepSpawn; cbn; lia|]. eapply StepsCons; [apply StepSpawn; cbn; lia|]. apply StepsRefl.
Qed.

(** A concrete schedule: three elements, two threads, the second thread first. *)
Example C34_ex : exists c, steps (fun i => inl (10 * i)) (start_config 3 [(0, 1); (1, 3)]) c /\ finished c /\
  answer c = Ok [Some 0; Some 10; Some 20] /\ dispatch_ranges 3 2 8 = Ok [(0, 1); (1, 3)].
Proof.
  exists (Config 2 [((0, 1), Done); ((1, 3), Done)] [Some 0; Some 10; Some 20] None).
  split; [|split; [|split; reflexivity]].
  - eapply StepsCons; [apply StepSpawn; cbn; lia|]. eapply StepsCons; [apply StepSpawn; cbn; lia|].
    eapply StepsCons; [eapply StepWrite with (i := 1%nat) (s := 1) (e := 3) (cur := 1); [lia|reflexivity|lia|reflexivity]|].
    eapply StepsCons; [eapply StepWrite with (i := 0%nat) (s := 0) (e := 1) (cur := 0); [lia|reflexivity|lia|reflexivity]|].
    eapply StepsCons; [eapply StepWrite with (i := 1%nat) (s := 1) (e := 3) (cur := 2); [lia|reflexivity|lia|reflexivity]|].
    eapply StepsCons; [eapply StepExit with (i := 0%nat) (s := 0) (e := 1) (cur := 1); [lia|reflexivity|lia]|].
    eapply StepsCons; [eapply StepExit with (i := 1%nat) (s := 1) (e := 3) (cur := 3); [lia|reflexivity|lia]|].
    apply StepsRefl.
  - split; [reflexivity|]. intros i r st N. destruct i as [|[|i]]; cbn in N; [congruence|congruence|destruct i; discriminate].
Qed.
