(** Inverse distance weighting and nearest neighbour in grids: lemmas. *)
From Coq Require Import Qpower.
From Verif Require Import Base BaseProofs MathModel MathProofs AxisModel IntAxisModel AxisSpec AxisProofs AxisProofs2 AxisProofs5 GridModel GridSpec GridProofs GridProofs2.
Open Scope Z_scope.

Lemma reached_indexes : forall a x, axis_ok a -> 1 < len a -> reached a x ->
  exists i0 i1, find_indexes a x = Ok (Some (i0, i1)) /\ around a x (normalize_coordinate_min a x (fval (a_cont a) i0)) i0 i1.
Proof.
  intros a x OK L R. unfold reached, around in *. destruct (is_angle a) eqn:An.
  - pose proof (angle_circle a OK An) as Hc.
    assert (F : exists z i0 i1, same_angle z x /\ find_indexes a x = Ok (Some (i0, i1)) /\ (brackets a z i0 i1 \/ (a_is_circle a = true /\ seam a z i0 i1))).
    { destruct (a_is_circle a) eqn:C.
      - destruct (find_indexes_circle a x OK L C) as (z & i0 & i1 & Z & F & [B|B]); exists z, i0, i1; auto 6.
      - destruct R as [R|R]; [discriminate|]. destruct (covered_found a x OK L An R) as (z & Z & I & B). destruct (angle_found a x z OK L An Z I B) as (i0 & i1 & F & Bk). exists z, i0, i1. auto. }
    destruct F as (z & i0 & i1 & Z & F & H). exists i0, i1. split; [exact F|]. destruct (norm_min_angle a x (fval (a_cont a) i0) Hc) as (_ & S). split; [exact S|]. exists z. auto.
  - destruct (plain_indexes a x OK L An R) as (i0 & i1 & F & B). exists i0, i1. split; [exact F|]. split; [apply no_angle_min; exact An|exact B].
Qed.

Lemma qpower_pos : forall q e, (0 < q)%Q -> (0 < Qpower q e)%Q.
Proof.
  intros q e H. assert (A : (0 <= Qpower q e)%Q) by (apply Qpower_pos; lra). assert (B : ~ (Qpower q e == 0)%Q) by (apply Qpower_not_0; lra). lra.
Qed.
Lemma total_cons : forall a l, total (a :: l) = (fst a + total l)%Q.
Proof. reflexivity. Qed.
Lemma weighted_cons : forall a l, weighted (a :: l) = (fst a * snd a + weighted l)%Q.
Proof. reflexivity. Qed.
Lemma total_pos : forall l, l <> [] -> (forall wv, In wv l -> 0 < fst wv)%Q -> (0 < total l)%Q.
Proof.
  induction l as [|a l IH]; [congruence|]. intros _ H. rewrite total_cons. pose proof (H a (or_introl eq_refl)). destruct l as [|b l]; [change (total []) with 0%Q; lra|].
  assert (0 < total (b :: l))%Q by (apply IH; [congruence|intros; apply H; right; assumption]). lra.
Qed.
Lemma weighted_bounds : forall l lo hi, (forall wv, In wv l -> 0 < fst wv /\ lo <= snd wv <= hi)%Q -> (lo * total l <= weighted l <= hi * total l)%Q.
Proof.
  induction l as [|a l IH]; intros lo hi H; [change (total []) with 0%Q; change (weighted []) with 0%Q; lra|]. rewrite total_cons, weighted_cons. pose proof (H a (or_introl eq_refl)) as (P & A & B). destruct (IH lo hi) as [L U]; [intros; apply H; right; assumption|].
  assert (lo * fst a <= fst a * snd a)%Q by nra. assert (fst a * snd a <= hi * fst a)%Q by nra. lra.
Qed.
Lemma mean_within : forall l v, l <> [] -> (forall wv, In wv l -> 0 < fst wv)%Q -> (v * total l == weighted l)%Q -> within (map snd l) v.
Proof.
  intros l v N P E. pose proof (total_pos l N P) as T. destruct (extreme (map snd l)) as (a & b & A & B & H); [destruct l; cbn; congruence|].
  destruct (weighted_bounds l a b) as [L U]; [intros wv I; split; [apply P, I|apply H, in_map, I]|].
  split; [exists a|exists b]; (split; [assumption|]).
  - destruct (Qlt_le_dec v a); [exfalso|assumption]. assert (v * total l < a * total l)%Q by (apply Qmult_lt_compat_r; assumption). lra.
  - destruct (Qlt_le_dec b v); [exfalso|assumption]. assert (b * total l < v * total l)%Q by (apply Qmult_lt_compat_r; assumption). lra.
Qed.

Section Idw.
  Variables (d : point -> point -> Q) (e : Z) (p : point).
  (** A close site stops the loop. *)
  Lemma idw_close : forall before s q after w wu, (d p s <= epsilon)%Q -> (forall s' q', In (s', q') before -> epsilon < d p s')%Q ->
    idw_loop d e p (before ++ (s, q) :: after) w wu = q.
  Proof.
    induction before as [|[s' q'] before IH]; intros s q after w wu H B; cbn [app idw_loop].
    - destruct (Qleb_spec (d p s) epsilon); [reflexivity|exfalso; lra].
    - pose proof (B s' q' (or_introl eq_refl)). destruct (Qleb_spec (d p s') epsilon); [exfalso; lra|]. apply IH; [exact H|]. intros; apply (B s'0 q'0); right; assumption.
  Qed.
  Lemma idw_none : forall sites w, (forall s q, In (s, q) sites -> epsilon < d p s)%Q -> idw_loop d e p sites w None = None.
  Proof.
    induction sites as [|[s q] sites IH]; intros w H; cbn [idw_loop]; [reflexivity|]. pose proof (H s q (or_introl eq_refl)). destruct (Qleb_spec (d p s) epsilon); [exfalso; lra|].
    cbn [nan2]. apply IH. intros; apply (H s0 q0); right; assumption.
  Qed.
  Lemma idw_missing : forall sites w wu, (forall s q, In (s, q) sites -> epsilon < d p s)%Q -> (exists s, In (s, None) sites) -> idw_loop d e p sites w wu = None.
  Proof.
    induction sites as [|[s q] sites IH]; intros w wu H (s' & I); [destruct I|]. cbn [idw_loop]. pose proof (H s q (or_introl eq_refl)). destruct (Qleb_spec (d p s) epsilon); [exfalso; lra|].
    assert (H' : forall s q, In (s, q) sites -> (epsilon < d p s)%Q) by (intros; apply (H s0 q0); right; assumption).
    destruct I as [E|I].
    - injection E as -> ->. replace (nan2 Qplus wu (nan2 Qmult None (Some (1 / Qpower (d p s') e)%Q))) with (@None Q) by (destruct wu; reflexivity). apply idw_none, H'.
    - apply IH; [exact H'|]. exists s'. exact I.
  Qed.
  Lemma idw_mean : forall sites l w s0, (forall s q, In (s, q) sites -> epsilon < d p s)%Q ->
    Forall2 (fun site wv => snd site = Some (snd wv) /\ fst wv = (/ Qpower (d p (fst site)) e)%Q) sites l ->
    exists w' s', idw_loop d e p sites w (Some s0) = nan2 Qdiv (Some s') (Some w') /\ (w' == w + total l)%Q /\ (s' == s0 + weighted l)%Q.
  Proof.
    induction sites as [|[s q] sites IH]; intros l w s0 H F; inversion F as [|a [wi v] b l' [E1 E2] F']; subst; cbn [idw_loop].
    - exists w, s0. change (total []) with 0%Q; change (weighted []) with 0%Q. split; [reflexivity|]. split; lra.
    - pose proof (H s q (or_introl eq_refl)). destruct (Qleb_spec (d p s) epsilon); [exfalso; lra|]. cbn [fst snd] in E1, E2. subst q wi. cbn [nan2].
      destruct (IH l' (w + 1 / Qpower (d p s) e)%Q (s0 + v * (1 / Qpower (d p s) e))%Q) as (w' & s' & E & W & S); [intros; apply (H s1 q); right; assumption|exact F'|].
      exists w', s'. split; [exact E|]. rewrite total_cons, weighted_cons. cbn [fst snd]. rewrite W, S. unfold Qdiv. split; ring.
  Qed.
  Lemma idw_loop_spec : forall sites, idw_spec d e epsilon p sites (idw_loop d e p sites 0 (Some 0%Q)).
  Proof.
    intros sites. split.
    - intros before s q after -> H B. apply idw_close; assumption.
    - intro H. split; [apply idw_missing; exact H|]. intros l N F.
      assert (P : forall wv, In wv l -> (0 < fst wv)%Q).
      { clear N. revert sites H F. induction l as [|[wi v] l IH]; intros sites H F wv I; [destruct I|]. inversion F as [|[s q] b sites' l' [E1 E2] F' Es El]; subst. destruct I as [<-|I].
        - cbn [fst snd] in *. rewrite E2. apply Qinv_lt_0_compat, qpower_pos. pose proof (H s q (or_introl eq_refl)). unfold epsilon in *. lra.
        - apply (IH sites'); [intros; apply (H s0 q0); right; assumption|exact F'|exact I]. }
      split; [exact P|]. destruct (idw_mean sites l 0 0%Q H F) as (w' & s' & E & W & S). assert (Nl : l <> []) by (destruct F; congruence). pose proof (total_pos l Nl P) as T.
      assert (V : (s' / w' * total l == weighted l)%Q). { rewrite W, S. setoid_replace (0 + total l)%Q with (total l) by ring. setoid_replace (0 + weighted l)%Q with (weighted l) by ring. field. lra. }
      exists (s' / w')%Q. rewrite E. split; [reflexivity|]. split; [exact V|]. apply mean_within; assumption.
  Qed.
End Idw.
Section Near.
  Variables (c : point -> point -> Q) (p : point).
  Lemma nearest_loop_spec : forall sites done s q mid,
    (forall s' q', In (s', q') done -> c p s < c p s')%Q -> (forall s' q', In (s', q') mid -> c p s <= c p s')%Q ->
    nearest_spec c p (done ++ (s, q) :: mid ++ sites) (nearest_loop c p sites (c p s, q)).
  Proof.
    induction sites as [|[t r] sites IH]; intros done s q mid D M; cbn [nearest_loop].
    - rewrite app_nil_r. exists done, s, q, mid. split; [reflexivity|]. cbn [snd]. split; [reflexivity|]. auto.
    - cbn [fst]. destruct (Qltb_spec (c p t) (c p s)).
      + assert (I := IH (done ++ (s, q) :: mid) t r []). replace (done ++ (s, q) :: mid ++ (t, r) :: sites) with ((done ++ (s, q) :: mid) ++ (t, r) :: [] ++ sites) by (rewrite <- app_assoc; reflexivity).
        apply I; [|intros ? ? []]. intros s' q' K. apply in_app_or in K as [K|[K|K]]; [pose proof (D s' q' K); lra|injection K as -> ->; assumption|pose proof (M s' q' K); lra].
      + assert (I := IH done s q (mid ++ [(t, r)])). rewrite <- app_assoc in I. apply I; [exact D|]. intros s' q' K. apply in_app_or in K as [K|[K|[]]]; [apply (M s' q' K)|injection K as -> ->; lra].
  Qed.
End Near.
