(** A used object answers as a new one: lemmas. *)
From Verif Require Import Base BaseProofs InterpModel InterpSpec Interp1dModel Interp1dSpec InterpProofs InterpProofs2 InterpProofs3 InterpProofs4 InterpProofs5 InterpProofs6.
Open Scope nat_scope.

Lemma search_cases : forall xa x, increasing xa -> 2 <= length xa ->
  search xa x = Ok None \/ exists i, S i < length xa /\ search xa x = Ok (Some (i, S i)).
Proof.
  intros xa x I N. destruct (cell_exists xa x I N) as [O|(i & C)]; [left; apply search_outside; auto|].
  right. exists i. split; [apply C|apply search_cell; auto].
Qed.
Lemma check_cases : forall m xa ya, (exists w, check_sizes m xa ya = Throw w) \/ (check_sizes m xa ya = Ok tt /\ length xa = length ya /\ m <= length xa).
Proof.
  intros m xa ya. unfold check_sizes. destruct (Nat.eqb_spec (length xa) (length ya)); cbn [negb]; [|eauto].
  destruct (Nat.ltb_spec (length xa) m); [eauto|]. auto.
Qed.
Lemma steffen_same : forall a b xa ya x, increasing xa -> 2 <= length xa -> (forall j, j < length xa -> bread a j = bread b j) ->
  steffen_interp a xa ya x = steffen_interp b xa ya x /\ steffen_deriv a xa ya x = steffen_deriv b xa ya x.
Proof.
  intros a b xa ya x I N H. unfold steffen_interp, steffen_deriv, steffen_cell. destruct (search_cases xa x I N) as [->|(i & Hi & ->)]; cbn [obind]; [auto|].
  rewrite (H i), (H (S i)) by lia. auto.
Qed.
Lemma cspline_same : forall a b xa ya x, increasing xa -> 2 <= length xa -> (forall j, j < length xa -> bread a j = bread b j) ->
  cspline_interp a xa ya x = cspline_interp b xa ya x /\ cspline_deriv a xa ya x = cspline_deriv b xa ya x.
Proof.
  intros a b xa ya x I N H. unfold cspline_interp, cspline_deriv, cspline_cell. destruct (search_cases xa x I N) as [->|(i & Hi & ->)]; cbn [obind]; [auto|].
  rewrite (H i), (H (S i)) by lia. auto.
Qed.
Lemma akima_same : forall a b xa ya x, increasing xa -> 2 <= length xa -> (forall j, j < length xa -> bread (am a) j = bread (am b) j) -> (forall j, j < length xa -> bread (as_ a) j = bread (as_ b) j) ->
  akima_interp a xa ya x = akima_interp b xa ya x /\ akima_deriv a xa ya x = akima_deriv b xa ya x.
Proof.
  intros a b xa ya x I N H H'. unfold akima_interp, akima_deriv, akima_cell. destruct (search_cases xa x I N) as [->|(i & Hi & ->)]; cbn [obind]; [auto|].
  rewrite (H i), (H' i), (H' (S i)) by lia. auto.
Qed.
Lemma ofor_ext : forall (S : Type) (f g : nat -> S -> outcome S) n from s, (forall i s, from <= i < from + n -> f i s = g i s) -> ofor from n f s = ofor from n g s.
Proof. intros S f g. induction n as [|n IH]; intros from s H; cbn [ofor]; [reflexivity|]. rewrite H by lia. destruct (g from s); cbn [obind]; auto. apply IH. intros i t Hi. apply H. lia. Qed.
Lemma odown_ext : forall (S : Type) (f g : nat -> S -> outcome S) n s, (forall i s, i < n -> f i s = g i s) -> odown n f s = odown n g s.
Proof. intros S f g. induction n as [|n IH]; intros s H; cbn [odown]; [reflexivity|]. rewrite H by lia. destruct (g n s); cbn [obind]; auto. Qed.
Lemma poly_same : forall a b xa ya x, increasing xa -> 2 <= length xa -> (forall j, j < length xa -> bread a j = bread b j) ->
  poly_interp a xa ya x = poly_interp b xa ya x /\ poly_deriv a xa ya x = poly_deriv b xa ya x.
Proof.
  intros a b xa ya x I N H. unfold poly_interp, poly_deriv. destruct (search_cases xa x I N) as [->|(i & Hi & ->)]; cbn [obind]; [auto|]. split.
  - rewrite (H (length xa - 1)) by lia. destruct (bread b (length xa - 1)); cbn [obind]; auto. f_equal. apply odown_ext. intros k y Hk. rewrite H by lia. reflexivity.
  - f_equal. unfold poly_taylor. rewrite (H 0) by lia. destruct (bwrite _ _ _); cbn [obind]; auto. destruct (bread b 0); cbn [obind]; auto. destruct (bwrite _ _ _); cbn [obind]; auto.
    f_equal. apply odown_ext. intros k [w c] Hk. destruct (bread w (k + 1)); cbn [obind]; auto. destruct (oat xa (length xa - 2 - k)); cbn [obind]; auto. destruct (bwrite _ _ _); cbn [obind]; auto. destruct (ofor _ _ _ _); cbn [obind]; auto.
    f_equal. apply ofor_ext. intros j t Hj. rewrite (H (length xa - k - 1)) by lia. reflexivity.
Qed.

Lemma used_same : forall pk kind s o o0 xa ya x, cuts pk -> used pk kind s o -> factory_1d kind = Ok o0 -> kind <> "c_spline_periodic"%string -> increasing xa ->
  value pk o xa ya x = value pk o0 xa ya x /\ derivative pk o xa ya x = derivative pk o0 xa ya x.
Proof.
  intros pk kind s o o0 xa ya x P U F K I. pose proof F as F'. unfold factory_1d in F'.
  destruct (String.eqb_spec kind "linear") as [->|_]; [injection F' as <-; rewrite (used_linear _ _ _ U); auto|].
  destruct (String.eqb_spec kind "polynomial") as [->|_].
  { injection F' as <-. apply used_polynomial in U as (w & ->). unfold value, derivative. cbn [compute_coefficients].
    destruct (check_cases 3 xa ya) as [(u & E)|(E & L & N)].
    { unfold poly_compute, polynomial_min_size. rewrite E. cbn [obind]. auto. }
    assert (D : data 3 xa ya) by (split; [exact L|]; split; [exact N|exact I]). pose proof (poly_two_runs pk xa ya w bempty P D) as H.
    destruct (poly_compute pk w xa ya) as [a|a|a], (poly_compute pk bempty xa ya) as [b|b|b]; cbn in H; try tauto; cbn [obind interpolate_ derivative_]; try (subst; auto).
    destruct H as (_ & _ & H). apply poly_same; auto. lia. }
  destruct (String.eqb_spec kind "c_spline") as [->|_].
  { injection F' as <-. apply used_cspline in U as (st & -> & Inv). unfold value, derivative. cbn [compute_coefficients].
    destruct (check_cases 4 xa ya) as [(u & E)|(E & L & N)].
    { unfold cspline_compute, cspline_min_size. rewrite E. cbn [obind]. auto. }
    assert (D : data 4 xa ya) by (split; [exact L|]; split; [exact N|exact I]).
    destruct (cspline_compute_ok st xa ya Inv D) as (a & -> & _ & Ra). destruct (cspline_compute_ok cspline_init xa ya (or_introl eq_refl) D) as (b & -> & _ & Rb).
    cbn [obind interpolate_ derivative_]. apply cspline_same; auto; [lia|]. intros j Hj. rewrite Ra, Rb by exact Hj. reflexivity. }
  destruct (String.eqb_spec kind "c_spline_periodic") as [->|_]; [congruence|].
  assert (Ak : forall (per : bool) st, akima_inv st -> forall f : akima_state -> interpolator, (forall st, f st = (if per then IAkimaPeriodic st else IAkima st)) ->
     value pk (f st) xa ya x = value pk (f akima_init) xa ya x /\ derivative pk (f st) xa ya x = derivative pk (f akima_init) xa ya x).
  { intros per st Inv f Hf. rewrite !Hf. destruct (check_cases 5 xa ya) as [(u & E)|(E & L & N)].
    { unfold value, derivative. destruct per; cbn [compute_coefficients]; unfold akima_compute, akima_min_size; rewrite E; cbn [obind]; auto. }
    assert (D : data 5 xa ya) by (split; [exact L|]; split; [exact N|exact I]).
    destruct (akima_compute_ok per st xa ya Inv D) as (a & Ea & _ & Ra & Sa). assert (Inv0 : akima_inv akima_init) by (unfold akima_inv; cbn; lia).
    destruct (akima_compute_ok per akima_init xa ya Inv0 D) as (b & Eb & _ & Rb & Sb).
    unfold value, derivative. destruct per; cbn [compute_coefficients]; rewrite Ea, Eb; cbn [obind interpolate_ derivative_]; apply akima_same; auto; try lia; intros j Hj; rewrite ?Ra, ?Rb, ?Sa, ?Sb by lia; reflexivity. }
  destruct (String.eqb_spec kind "akima") as [->|_]; [injection F' as <-; apply used_akima in U as (st & -> & Inv); apply (Ak false st Inv IAkima); reflexivity|].
  destruct (String.eqb_spec kind "akima_periodic") as [->|_]; [injection F' as <-; apply used_akima_periodic in U as (st & -> & Inv); apply (Ak true st Inv IAkimaPeriodic); reflexivity|].
  destruct (String.eqb_spec kind "steffen") as [->|_]; [|discriminate].
  injection F' as <-. apply used_steffen in U as (w & ->). unfold value, derivative. cbn [compute_coefficients].
  destruct (check_cases 3 xa ya) as [(u & E)|(E & L & N)].
  { unfold steffen_compute, steffen_min_size. rewrite E. cbn [obind]. auto. }
  assert (D : data 3 xa ya) by (split; [exact L|]; split; [exact N|exact I]).
  destruct (steffen_compute_ok w xa ya D) as (a & -> & Ra). destruct (steffen_compute_ok bempty xa ya D) as (b & -> & Rb).
  cbn [obind interpolate_ derivative_]. apply steffen_same; auto; [lia|]. intros j Hj. rewrite Ra, Rb by exact Hj. reflexivity.
Qed.
Lemma pspline_same : forall pk o o0 xa ya x, used pk "c_spline_periodic" (fun k => k <= length xa) o -> factory_1d "c_spline_periodic" = Ok o0 -> data 4 xa ya ->
  value pk o xa ya x = value pk o0 xa ya x /\ derivative pk o xa ya x = derivative pk o0 xa ya x.
Proof.
  intros pk o o0 xa ya x U F D. injection F as <-. apply used_pspline in U as (st & -> & Inv & Hn).
  destruct (pspline_compute_ok st xa ya Inv Hn D) as (a & Ea & _ & _ & Ra).
  destruct (pspline_compute_ok pspline_init xa ya (or_introl eq_refl) ltac:(cbn; lia) D) as (b & Eb & _ & _ & Rb).
  unfold value, derivative. cbn [compute_coefficients]. rewrite Ea, Eb. cbn [obind interpolate_ derivative_]. destruct D as (L & N & I). apply cspline_same; auto; [lia|].
  intros j Hj. rewrite Ra, Rb by exact Hj. reflexivity.
Qed.
