(** The multi-threaded relaxation computes what the sequential one computes. *)
From Verif Require Import Base BaseProofs RelaxModel RelaxSpec RelaxProofs.
Open Scope Z_scope.

Definition target (m : micro) : cell := match m with Load p => p | Update p => p end.

(** ** Thread-local view: running a schedule, seen from thread [t] on cells [F] that only
    [t] writes, is running the instructions of [t] alone. *)
Section View.
  Variable relax : Q.
  Variable t : nat.
  Variable F : cell -> Prop.
  Definition safe (e : nat * micro) : Prop :=
    (fst e = t -> F (target (snd e))) /\ (fst e <> t -> forall p, snd e = Update p -> ~ F p).
  Definition agree (s1 s2 : machine) : Prop :=
    (forall p, F p -> fst s1 p = fst s2 p) /\ snd s1 t = snd s2 t.

  Lemma step_same : forall s1 s2 m, F (target m) -> agree s1 s2 -> agree (micro_step relax s1 (t, m)) (micro_step relax s2 (t, m)).
  Proof.
    intros [g1 l1] [g2 l2] m Fm (A & B). cbn [fst snd] in *. unfold micro_step; cbn [fst snd]. destruct m as [p|p]; cbn [target] in Fm.
    - split; cbn [fst snd]; [exact A|]. unfold set_local. rewrite Nat.eqb_refl, B, (A p Fm). reflexivity.
    - rewrite B. destruct (regs (l2 t)) as [|a [|b [|c [|d [|x [|y [|]]]]]]]; try (split; cbn [fst snd]; [exact A|exact B]).
      split; cbn [fst snd].
      + intros q Fq. unfold upd. destruct (ceqb q p); [reflexivity|apply A; exact Fq].
      + unfold set_local. rewrite Nat.eqb_refl. reflexivity.
  Qed.
  Lemma step_other : forall s1 s2 e, fst e <> t -> (forall p, snd e = Update p -> ~ F p) -> agree s1 s2 -> agree (micro_step relax s1 e) s2.
  Proof.
    intros [g1 l1] s2 [u m] N W (A & B). cbn [fst snd] in *. unfold micro_step; cbn [fst snd].
    assert (Nu : Nat.eqb t u = false) by (apply Nat.eqb_neq; congruence).
    destruct m as [p|p].
    - split; cbn [fst snd]; [exact A|]. unfold set_local. rewrite Nu. exact B.
    - destruct (regs (l1 u)) as [|a [|b [|c [|d [|x [|y [|]]]]]]]; try (split; cbn [fst snd]; [exact A|exact B]).
      split; cbn [fst snd].
      + intros q Fq. unfold upd. destruct (ceqb_spec q p) as [->|]; [exfalso; apply (W p eq_refl); exact Fq|apply A; exact Fq].
      + unfold set_local. rewrite Nu. exact B.
  Qed.
  Lemma view : forall sched s1 s2, Forall safe sched -> agree s1 s2 ->
    agree (run_schedule relax sched s1) (run_schedule relax (map (pair t) (of_thread t sched)) s2).
  Proof.
    induction sched as [|[u m] sched IH]; intros s1 s2 S A; [exact A|]. inversion S as [|? ? (S1 & S2) S']; subst. cbn [fst snd] in *.
    unfold of_thread; cbn [filter fst]. destruct (Nat.eqb_spec u t) as [->|N].
    - cbn [map snd]. cbn [run_schedule fold_left]. apply IH; [exact S'|]. apply step_same; auto.
    - unfold run_schedule at 1; cbn [fold_left]. apply IH; [exact S'|]. apply step_other; auto.
  Qed.
End View.

(** Two schedules with the same instructions per thread. *)
Lemma same_view : forall relax F sched1 sched2 t s,
  Forall (safe t F) sched1 -> Forall (safe t F) sched2 -> of_thread t sched1 = of_thread t sched2 ->
  agree t F (run_schedule relax sched1 s) (run_schedule relax sched2 s).
Proof.
  intros relax F s1 s2 t s S1 S2 E. assert (R : agree t F s s) by (split; auto).
  destruct (view relax t F s1 s s S1 R) as [A B]. destruct (view relax t F s2 s s S2 R) as [C D]. rewrite E in *. split.
  - intros p Fp. rewrite (A p Fp), (C p Fp). reflexivity.
  - congruence.
Qed.

(** ** Bands *)
Lemma band_le : forall ny n t, (1 <= n)%nat -> (t < n)%nat -> (snd (band ny n t) <= ny)%nat.
Proof.
  intros ny n t Hn Ht. unfold band. cbn [snd]. destruct (Nat.eqb_spec t (n - 1)); [lia|].
  pose proof (Nat.mul_div_le ny n ltac:(lia)). assert ((t + 1) * (ny / n) <= n * (ny / n))%nat by (apply Nat.mul_le_mono_r; lia). lia.
Qed.
Lemma band_disjoint : forall ny n a b y, (a < n)%nat -> (b < n)%nat ->
  (fst (band ny n a) <= y < snd (band ny n a))%nat -> (fst (band ny n b) <= y < snd (band ny n b))%nat -> a = b.
Proof.
  intros ny n. assert (W : forall a b y, (a < b)%nat -> (b < n)%nat -> (y < snd (band ny n a))%nat -> (fst (band ny n b) <= y)%nat -> False).
  { intros a b y Hab Hb. unfold band. cbn [fst snd]. destruct (Nat.eqb_spec a (n - 1)); [lia|]. intros H1 H2.
    assert ((a + 1) * (ny / n) <= b * (ny / n))%nat by (apply Nat.mul_le_mono_r; lia). lia. }
  intros a b y Ha Hb A B. destruct (lt_eq_lt_dec a b) as [[L|L]|L]; [exfalso; apply (W a b y); lia|exact L|exfalso; apply (W b a y); lia].
Qed.
Definition owner (ny n y : nat) : nat := if Nat.eqb (ny / n) 0 then n - 1 else Nat.min (y / (ny / n)) (n - 1).
Lemma owner_spec : forall ny n y, (1 <= n)%nat -> (y < ny)%nat ->
  (owner ny n y < n)%nat /\ (fst (band ny n (owner ny n y)) <= y < snd (band ny n (owner ny n y)))%nat.
Proof.
  intros ny n y Hn Hy. unfold owner, band. cbn [fst snd]. set (s := (ny / n)%nat). destruct (Nat.eqb_spec s 0) as [E|E].
  - rewrite Nat.eqb_refl, E. lia.
  - pose proof (Nat.mul_div_le y s E) as D1. pose proof (Nat.mul_succ_div_gt y s E) as D2.
    set (q := (y / s)%nat) in *. clearbody q. split; [lia|].
    destruct (Nat.le_gt_cases q (n - 1)) as [L|L].
    + rewrite Nat.min_l by exact L. destruct (Nat.eqb_spec q (n - 1)); nia.
    + rewrite Nat.min_r by lia. rewrite Nat.eqb_refl. nia.
Qed.
Lemma owner_iff : forall ny n t y, (1 <= n)%nat -> (t < n)%nat -> (y < ny)%nat ->
  ((fst (band ny n t) <= y < snd (band ny n t))%nat <-> owner ny n y = t).
Proof.
  intros ny n t y Hn Ht Hy. destruct (owner_spec ny n y Hn Hy) as [L B]. split.
  - intro A. symmetry. apply (band_disjoint ny n t (owner ny n y) y); assumption.
  - intros <-. exact B.
Qed.

Lemma filter_seq : forall n a b f, (b <= n)%nat -> (a <= b)%nat -> (forall y, (y < n)%nat -> (f y = true <-> (a <= y < b)%nat)) -> filter f (seq 0 n) = seq a (b - a).
Proof.
  intros n a b f Hb Hab Hf.
  assert (Split : seq 0 n = seq 0 a ++ seq a (b - a) ++ seq b (n - b)).
  { replace n with (a + ((b - a) + (n - b)))%nat at 1 by lia. rewrite !seq_app. do 3 f_equal; lia. }
  rewrite Split, !filter_app.
  assert (F0 : forall l, (forall y, In y l -> f y = false) -> filter f l = []).
  { induction l as [|y l IH]; intro H; [reflexivity|]. cbn. rewrite (H y) by (left; reflexivity). apply IH. intros z Hz. apply H. right; exact Hz. }
  assert (F1 : forall l, (forall y, In y l -> f y = true) -> filter f l = l).
  { induction l as [|y l IH]; intro H; [reflexivity|]. cbn. rewrite (H y) by (left; reflexivity). f_equal. apply IH. intros z Hz. apply H. right; exact Hz. }
  rewrite (F0 (seq 0 a)), (F1 (seq a (b - a))), (F0 (seq b (n - b))), app_nil_r; [reflexivity| | |];
    intros y Hy; apply in_seq in Hy; specialize (Hf y ltac:(lia)); try (apply Hf; lia);
    destruct (f y); try reflexivity; exfalso; assert (true = true) as T by reflexivity; apply Hf in T; lia.
Qed.
Lemma filter_comm : forall A (f g : A -> bool) l, filter f (filter g l) = filter g (filter f l).
Proof.
  intros A f g. induction l as [|a l IH]; [reflexivity|]. cbn. destruct (f a) eqn:F, (g a) eqn:G; cbn; rewrite ?F, ?G, IH; reflexivity.
Qed.
Lemma worker_band : forall nx ny mask c n t, (1 <= n)%nat -> (t < n)%nat ->
  filter (fun p => Nat.eqb (owner ny n (snd p)) t) (worker_cells nx mask 0 ny c) =
  worker_cells nx mask (fst (band ny n t)) (snd (band ny n t)) c.
Proof.
  intros nx ny mask c n t Hn Ht. unfold worker_cells. rewrite filter_comm. f_equal. rewrite Nat.sub_0_r.
  induction (seq 0 nx) as [|ix l IH]; [reflexivity|]. cbn [flat_map]. etransitivity; [apply filter_app|]. apply f_equal2; [|exact IH].
  transitivity (map (fun iy => (ix, iy)) (filter (fun y => Nat.eqb (owner ny n y) t) (seq 0 ny))).
  - clear IH. induction (seq 0 ny) as [|y ys IHy]; [reflexivity|]. cbn. destruct (Nat.eqb (owner ny n y) t); cbn; rewrite IHy; reflexivity.
  - f_equal. apply filter_seq; [apply band_le; assumption| |].
    + unfold band; cbn [fst snd]. destruct (Nat.eqb_spec t (n - 1)); [|lia].
      pose proof (Nat.mul_div_le ny n ltac:(lia)). assert (t * (ny / n) <= n * (ny / n))%nat by (apply Nat.mul_le_mono_r; lia). lia.
    + intros y Hy. rewrite Nat.eqb_eq. symmetry. apply owner_iff; assumption.
Qed.

Section Par.
  Variables (nx ny : nat) (circle : bool) (relax : Q) (mask : cell -> bool) (n c : nat).
  Hypothesis Hv : valid_shape nx ny circle.
  Hypothesis Hn : (1 <= n)%nat.

  Definition prog1 (p : cell) : list micro :=
    [Load (west nx circle p); Load (east nx circle p); Load (south p); Load (north ny p); Load p; Load p; Update p].
  Lemma program_ok : forall ps, Forall (inside nx ny) ps -> program nx ny circle ps = Ok (flat_map prog1 ps).
  Proof.
    induction ps as [|p ps IH]; intro F; [reflexivity|]. inversion F; subst. cbn [program flat_map]. unfold cell_program.
    rewrite (neighbours_ok nx ny circle p Hv) by assumption. cbn [obind]. rewrite IH by assumption. reflexivity.
  Qed.
  Lemma thread_program_ok : forall t, (t < n)%nat ->
    thread_program nx ny circle mask c n t = Ok (flat_map prog1 (worker_cells nx mask (fst (band ny n t)) (snd (band ny n t)) c)).
  Proof. intros t Ht. unfold thread_program. apply program_ok. apply worker_inside. apply band_le; assumption. Qed.

  (** The sequential order, seen as a schedule. *)
  Definition seq_schedule (ps : list cell) : list (nat * micro) := flat_map (fun p => map (pair (owner ny n (snd p))) (prog1 p)) ps.
  Lemma of_thread_app : forall t a b, of_thread t (a ++ b) = of_thread t a ++ of_thread t b.
  Proof. intros. unfold of_thread. rewrite filter_app, map_app. reflexivity. Qed.
  Lemma of_thread_pair : forall t u (l : list micro), of_thread t (map (pair u) l) = if Nat.eqb u t then l else [].
  Proof.
    intros t u l. unfold of_thread. induction l as [|m l IH]; cbn; [destruct (Nat.eqb u t); reflexivity|].
    destruct (Nat.eqb u t); cbn; [f_equal; exact IH|exact IH].
  Qed.
  Lemma seq_schedule_proj : forall t ps, of_thread t (seq_schedule ps) = flat_map prog1 (filter (fun p => Nat.eqb (owner ny n (snd p)) t) ps).
  Proof.
    intros t. induction ps as [|p ps IH]; [reflexivity|]. unfold seq_schedule in *. cbn [flat_map filter].
    rewrite of_thread_app, IH, of_thread_pair. destruct (Nat.eqb (owner ny n (snd p)) t); reflexivity.
  Qed.

  (** Cells that only thread [t] may write. *)
  Definition private (t : nat) (p : cell) : Prop :=
    (fst (band ny n t) <= snd p < snd (band ny n t))%nat \/ ((fst p + snd p) mod 2 <> c)%nat.
  Lemma odd_neighbour : forall x y y', (y' = S y \/ y = S y')%nat -> ((x + y) mod 2 = c)%nat -> ((x + y') mod 2 <> c)%nat.
  Proof.
    intros x y y' H E. rewrite <- E. intro C. destruct H as [->| ->].
    - replace (x + S y)%nat with (S (x + y)) in C by lia. set (k := (x + y)%nat) in *. clearbody k.
      pose proof (Nat.div_mod_eq k 2). pose proof (Nat.div_mod_eq (S k) 2). lia.
    - replace (x + S y')%nat with (S (x + y')) in C by lia. set (k := (x + y')%nat) in *. clearbody k.
      pose proof (Nat.div_mod_eq k 2). pose proof (Nat.div_mod_eq (S k) 2). lia.
  Qed.
  Lemma prog1_private : forall t p m, In p (worker_cells nx mask (fst (band ny n t)) (snd (band ny n t)) c) -> (t < n)%nat ->
    In m (prog1 p) -> private t (target m).
  Proof.
    intros t [ix iy] m I Ht M. apply in_worker_cells in I. cbn [fst snd] in I. destruct I as (Ix & Iy & _ & C).
    pose proof (band_le ny n t Hn Ht) as Bl. destruct Hv as [Vy _].
    cbn in M. unfold private. destruct M as [<-|[<-|[<-|[<-|[<-|[<-|[<-|[]]]]]]]]; cbn [target].
    - left. unfold west; cbn [fst snd]. destruct ix; [destruct circle|]; exact Iy.
    - left. unfold east; cbn [fst snd]. destruct (Nat.eqb (S ix) nx); [destruct circle|]; exact Iy.
    - right. unfold south; cbn [fst snd]. destruct iy as [|j]; cbn [fst snd]; apply (odd_neighbour ix) with (2 := C); lia.
    - right. unfold north; cbn [fst snd]. destruct (Nat.eqb_spec (S iy) ny); cbn [fst snd]; apply (odd_neighbour ix) with (2 := C); lia.
    - left. exact Iy.
    - left. exact Iy.
    - left. exact Iy.
  Qed.

  (** Accesses of distinct threads do not conflict. *)
  Lemma no_conflict : forall t u p m, (t < n)%nat -> (u < n)%nat -> t <> u ->
    In (Update p) (flat_map prog1 (worker_cells nx mask (fst (band ny n u)) (snd (band ny n u)) c)) ->
    In m (flat_map prog1 (worker_cells nx mask (fst (band ny n t)) (snd (band ny n t)) c)) -> target m <> p.
  Proof.
    intros t u p m Ht Hu Ntu Iu It E. subst p. apply in_flat_map in Iu, It. destruct Iu as (q & Iq & Mq), It as (q' & Iq' & Mq').
    pose proof (prog1_private t q' m Iq' Ht Mq') as P.
    assert (q = target m). { cbn in Mq. repeat (destruct Mq as [Mq|Mq]; [discriminate || congruence|]). destruct Mq. }
    subst q. apply in_worker_cells in Iq. destruct Iq as (_ & B & _ & C). destruct P as [P|P]; [|contradiction].
    apply Ntu. apply (band_disjoint ny n t u (snd (target m))); assumption.
  Qed.

  Variable progs : nat -> list micro.
  Hypothesis Hp : forall t, (t < n)%nat -> thread_program nx ny circle mask c n t = Ok (progs t).
  Hypothesis Hend : forall t, (n <= t)%nat -> progs t = [].
  Lemma progs_eq : forall t, (t < n)%nat -> progs t = flat_map prog1 (worker_cells nx mask (fst (band ny n t)) (snd (band ny n t)) c).
  Proof. intros t Ht. specialize (Hp t Ht). rewrite thread_program_ok in Hp by exact Ht. congruence. Qed.
  Lemma in_of_thread : forall sched e, In e sched -> In (snd e) (of_thread (fst e) sched).
  Proof. intros sched e H. unfold of_thread. apply in_map. apply filter_In. split; [exact H|apply Nat.eqb_refl]. Qed.
  Lemma sched_safe : forall sched t, (t < n)%nat -> interleaving progs sched -> Forall (safe t (private t)) sched.
  Proof.
    intros sched t Ht I. apply Forall_forall. intros [u m] He. pose proof (in_of_thread _ _ He) as Im. cbn [fst snd] in Im. rewrite I in Im.
    assert (Hu : (u < n)%nat). { destruct (lt_dec u n); [assumption|]. rewrite Hend in Im by lia. destruct Im. }
    rewrite progs_eq in Im by exact Hu. apply in_flat_map in Im. destruct Im as (q & Iq & Mq). split; cbn [fst snd].
    - intros ->. apply (prog1_private t q m Iq Ht Mq).
    - intros N p ->. assert (q = p). { cbn in Mq. repeat (destruct Mq as [Mq|Mq]; [discriminate || congruence|]). destruct Mq. }
      subst q. apply in_worker_cells in Iq. destruct Iq as (_ & B & _ & C). intros [P|P]; [|contradiction].
      apply N. symmetry. apply (band_disjoint ny n t u (snd p)); assumption.
  Qed.
  Lemma seq_interleaving : interleaving progs (seq_schedule (worker_cells nx mask 0 ny c)).
  Proof.
    intro t. rewrite seq_schedule_proj. destruct (lt_dec t n) as [Ht|Ht].
    - rewrite worker_band by assumption. symmetry. apply progs_eq. exact Ht.
    - rewrite Hend by lia. assert (E : filter (fun p => Nat.eqb (owner ny n (snd p)) t) (worker_cells nx mask 0 ny c) = []); [|rewrite E; reflexivity].
      pose proof (worker_inside nx ny mask 0 ny c (le_n ny)) as W. induction W as [|p l Ip W IH]; [reflexivity|]. cbn.
      destruct (Nat.eqb_spec (owner ny n (snd p)) t) as [E|E]; [|exact IH]. exfalso. destruct Ip as [_ Iy]. destruct (owner_spec ny n (snd p) Hn Iy). lia.
  Qed.

  (** Running the sequential order instruction by instruction. *)
  Definition maxinv (l : nat -> tlocal) (m : Q) : Prop :=
    (forall t, (t < n)%nat -> (tmax (l t) <= m)%Q) /\ exists t, (t < n)%nat /\ (tmax (l t) == m)%Q.
  Lemma block_run : forall g l p t, regs (l t) = [] -> exists l',
    run_schedule relax (map (pair t) (prog1 p)) (g, l) = (upd g p (g p + res nx ny circle relax g p)%Q, l') /\
    l' t = TLocal [] (smax (tmax (l t)) (Qabs (res nx ny circle relax g p))) /\ forall u, u <> t -> l' u = l u.
  Proof.
    intros g l p t R. unfold run_schedule, prog1. cbn [map fold_left]. unfold micro_step at 7. cbn [fst snd].
    unfold micro_step. cbn [fst snd]. unfold set_local. rewrite !Nat.eqb_refl. cbn [regs tmax]. rewrite R. cbn [app].
    eexists. split; [reflexivity|]. split.
    - cbn beta. rewrite Nat.eqb_refl. cbn [tmax]. reflexivity.
    - intros u Hu. destruct (Nat.eqb_spec u t); [contradiction|reflexivity].
  Qed.
  Lemma run_app : forall a b s, run_schedule relax (a ++ b) s = run_schedule relax b (run_schedule relax a s).
  Proof. intros. unfold run_schedule. apply fold_left_app. Qed.
  Lemma seq_run : forall ps g l m g' m', Forall (inside nx ny) ps -> (forall t, regs (l t) = []) -> maxinv l m ->
    cell_loop nx ny circle relax (g, m) ps = Ok (g', m') ->
    exists l', run_schedule relax (seq_schedule ps) (g, l) = (g', l') /\ maxinv l' m'.
  Proof.
    induction ps as [|p ps IH]; intros g l m g' m' F R M E; cbn [cell_loop] in E.
    - exists l. assert (g' = g) by congruence. assert (m' = m) by congruence. subst. split; [reflexivity|exact M].
    - inversion F as [|? ? Ip F']; subst. rewrite (cell_fill_ok nx ny circle relax Hv) in E by assumption. cbn [obind] in E.
      unfold seq_schedule. cbn [flat_map]. rewrite run_app. set (t := owner ny n (snd p)) in *.
      assert (Ht : (t < n)%nat) by (apply owner_spec; [exact Hn|apply Ip]).
      destruct (block_run g l p t (R t)) as (l1 & E1 & L1 & K1). rewrite E1.
      set (r := Qabs (res nx ny circle relax g p)) in *.
      apply IH with (m := smax m r); [exact F'| | |exact E].
      + intro u. destruct (Nat.eq_dec u t) as [->|Nu]; [rewrite L1; reflexivity|rewrite K1 by exact Nu; apply R].
      + destruct M as (M1 & t0 & Ht0 & M2). split.
        * intros u Hu. destruct (Nat.eq_dec u t) as [->|Nu].
          -- rewrite L1. cbn [tmax]. specialize (M1 t Hu). unfold smax. destruct (Qltb_spec (tmax (l t)) r), (Qltb_spec m r); lra.
          -- rewrite K1 by exact Nu. specialize (M1 u Hu). pose proof (smax_l m r). lra.
        * destruct (Qltb_spec m r) as [G|G].
          -- exists t. split; [exact Ht|]. rewrite L1. cbn [tmax]. specialize (M1 t Ht). unfold smax. destruct (Qltb_spec (tmax (l t)) r), (Qltb_spec m r); lra.
          -- exists t0. split; [exact Ht0|]. destruct (Nat.eq_dec t0 t) as [->|Nt].
             ++ rewrite L1. cbn [tmax]. unfold smax. destruct (Qltb_spec (tmax (l t)) r), (Qltb_spec m r); lra.
             ++ rewrite K1 by exact Nt. unfold smax. destruct (Qltb_spec m r); lra.
  Qed.
  Lemma max_element_spec : forall l a, (a <= max_element a l)%Q /\ (forall x, In x l -> (x <= max_element a l)%Q) /\ (max_element a l = a \/ In (max_element a l) l).
  Proof.
    induction l as [|b l IH]; intro a; cbn [max_element]; [split; [lra|split; [intros x []|left; reflexivity]]|].
    destruct (IH (smax a b)) as (A & B & C). pose proof (smax_l a b). pose proof (smax_r a b). split; [lra|]. split.
    - intros x [<-|Hx]; [lra|apply B; exact Hx].
    - destruct C as [C|C]; [|right; right; exact C]. rewrite C. destruct (smax_or a b) as [->| ->]; [left; reflexivity|right; left; reflexivity].
  Qed.
  Lemma maxinv_max : forall l m, maxinv l m -> (max_element (tmax (l 0%nat)) (map (fun t => tmax (l t)) (seq 1 (n - 1))) == m)%Q.
  Proof.
    intros l m (M1 & t0 & Ht0 & M2). destruct (max_element_spec (map (fun t => tmax (l t)) (seq 1 (n - 1))) (tmax (l 0%nat))) as (A & B & C).
    apply Qle_antisym.
    - destruct C as [->|C]; [apply M1; lia|]. apply in_map_iff in C. destruct C as (t & <- & Ht). apply in_seq in Ht. apply M1. lia.
    - rewrite <- M2. destruct t0 as [|t]; [exact A|]. apply B. apply in_map_iff. exists (S t). split; [reflexivity|]. apply in_seq. lia.
  Qed.

  Lemma par_seq : forall sched g gs ms, interleaving progs sched ->
    calculate nx ny circle relax mask g c = Ok (gs, ms) ->
    exists g' l', run_schedule relax sched (g, fun _ => TLocal [] 0%Q) = (g', l') /\
      (forall p, g' p = gs p) /\
      (max_element (tmax (l' 0%nat)) (map (fun t => tmax (l' t)) (seq 1 (n - 1))) == ms)%Q.
  Proof.
    intros sched g gs ms I E. destruct (run_schedule relax sched (g, fun _ => TLocal [] 0%Q)) as [g' l'] eqn:R. exists g', l'. split; [reflexivity|].
    unfold calculate in E. destruct (seq_run _ g (fun _ => TLocal [] 0%Q) 0%Q gs ms (worker_inside nx ny mask 0 ny c (le_n ny)) (fun _ => eq_refl)) as (ls & Es & Ms); [|exact E|].
    { split; [intros; cbn; lra|exists 0%nat; split; [lia|reflexivity]]. }
    assert (Ag : forall t, (t < n)%nat -> agree t (private t) (g', l') (gs, ls)).
    { intros t Ht. rewrite <- R, <- Es. apply same_view; [apply sched_safe; assumption|apply sched_safe; [assumption|exact seq_interleaving]|].
      rewrite I. symmetry. apply seq_interleaving. }
    split.
    - intro p. destruct (lt_dec (snd p) ny) as [Hy|Hy].
      + destruct (owner_spec ny n (snd p) Hn Hy) as [Ho Hb]. destruct (Ag _ Ho) as [A _]. apply A. left. exact Hb.
      + (* never written *)
        destruct (Nat.eq_dec ((fst p + snd p) mod 2) c) as [Ec|Nc].
        * assert (Keep : forall sch s, interleaving progs sch \/ True -> (forall e, In e sch -> snd e <> Update p) -> fst (run_schedule relax sch s) p = fst s p).
          { intros sch s _. revert s. induction sch as [|e sch IH]; intros s H; [reflexivity|]. unfold run_schedule; cbn [fold_left]. fold (run_schedule relax sch (micro_step relax s e)).
            rewrite IH by (intros e' He'; apply H; right; exact He'). destruct s as [g0 l0], e as [u m]. unfold micro_step; cbn [fst snd]. destruct m as [q|q]; [reflexivity|].
            destruct (regs (l0 u)) as [|a1 [|b1 [|c1 [|d1 [|x1 [|y1 [|]]]]]]]; try reflexivity. cbn [fst]. apply upd_other.
            intro C. apply (H (u, Update q)); [left; reflexivity|]. cbn. congruence. }
          assert (NW : forall sch, interleaving progs sch -> forall e, In e sch -> snd e <> Update p).
          { intros sch Isch e He C. pose proof (in_of_thread _ _ He) as Im. rewrite Isch, C in Im.
            assert (Hu : (fst e < n)%nat). { destruct (lt_dec (fst e) n); [assumption|]. rewrite Hend in Im by lia. destruct Im. }
            rewrite progs_eq in Im by exact Hu. apply in_flat_map in Im. destruct Im as (q & Iq & Mq).
            assert (q = p). { cbn in Mq. repeat (destruct Mq as [Mq|Mq]; [discriminate || congruence|]). destruct Mq. }
            subst q. apply in_worker_cells in Iq. pose proof (band_le ny n (fst e) Hn Hu). lia. }
          pose proof (Keep sched (g, fun _ => TLocal [] 0%Q) (or_intror Logic.I) (NW _ I)) as K1. rewrite R in K1.
          pose proof (Keep _ (g, fun _ => TLocal [] 0%Q) (or_intror Logic.I) (NW _ seq_interleaving)) as K2. rewrite Es in K2. cbn [fst] in K1, K2. congruence.
        * destruct (Ag 0%nat ltac:(lia)) as [A _]. apply A. right. exact Nc.
    - rewrite <- (maxinv_max ls ms Ms).
      assert (Lo : forall t, (t < n)%nat -> l' t = ls t) by (intros t Ht; destruct (Ag t Ht) as [_ B]; exact B).
      rewrite (Lo 0%nat ltac:(lia)). assert (Em : map (fun t => tmax (l' t)) (seq 1 (n - 1)) = map (fun t => tmax (ls t)) (seq 1 (n - 1))).
      { apply map_ext_in. intros t Ht. apply in_seq in Ht. rewrite Lo by lia. reflexivity. }
      rewrite Em. reflexivity.
  Qed.
End Par.

(** Extensionality of the sequential functions. *)
Lemma cell_loop_ext : forall nx ny circle relax, valid_shape nx ny circle -> forall ps g h m g' m', Forall (inside nx ny) ps -> (forall p, g p = h p) ->
  cell_loop nx ny circle relax (g, m) ps = Ok (g', m') -> exists h', cell_loop nx ny circle relax (h, m) ps = Ok (h', m') /\ forall p, g' p = h' p.
Proof.
  intros nx ny circle relax Hv. induction ps as [|p ps IH]; intros g h m g' m' F H E; cbn [cell_loop] in *.
  - exists h. assert (g' = g) by congruence. assert (m' = m) by congruence. subst. auto.
  - inversion F as [|? ? Ip F']; subst. rewrite (cell_fill_ok nx ny circle relax Hv) in E by assumption. rewrite (cell_fill_ok nx ny circle relax Hv) by assumption. cbn [obind] in *.
    assert (Er : res nx ny circle relax g p = res nx ny circle relax h p) by (unfold res; rewrite !H; reflexivity).
    rewrite Er in E. rewrite H in E. apply (IH _ _ _ _ _ F') with (2 := E). intro q. unfold upd. destruct (ceqb q p); [reflexivity|apply H].
Qed.
