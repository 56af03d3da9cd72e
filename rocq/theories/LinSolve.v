(** Gaussian elimination: a solver that satisfies the contracts of [RbfSpec], which shows that
    they can be met, and the solvability of the systems whose matrix has no kernel.  Auxiliary
    mathematics; nothing here models code. *)
From Coq Require Import Reals Lra Lia Permutation.
From Verif Require Import Base WindowModel WindowProofs RTreeModel RbfModel RbfSpec QuadForm.
Open Scope R_scope.

Fixpoint axpy (k : R) (c a : list R) : list R :=
  match c, a with
  | x :: c', y :: a' => (x - k * y) :: axpy k c' a'
  | _, _ => []
  end.
Lemma axpy_length : forall k c a, length c = length a -> length (axpy k c a) = length a.
Proof. intros k c. induction c; intros [|y a'] H; cbn in *; try lia. rewrite IHc; lia. Qed.
Lemma dotl_axpy : forall k c a y, length c = length a -> dotl (axpy k c a) y = dotl c y - k * dotl a y.
Proof.
  intros k c. induction c as [|x c IH]; intros [|z a] y H; cbn in *; try lia.
  - destruct y; cbn; lra.
  - destruct y as [|v y]; cbn; [lra|]. rewrite IH by lia. lra.
Qed.
Lemma dotl_repeat_0 : forall n l, dotl l (repeat 0 n) = 0.
Proof. intros n. induction n; intros [|a l]; cbn; try lra. rewrite IHn. lra. Qed.
Lemma dotl_repeat_0_l : forall n l, dotl (repeat 0 n) l = 0.
Proof. intros n. induction n; intros [|a l]; cbn; try lra. rewrite IHn. lra. Qed.

Fixpoint pick (s : list (list R * R)) : option ((list R * R) * list (list R * R)) :=
  match s with
  | [] => None
  | r :: t => if Reqb (hd 0 (fst r)) 0 then
                match pick t with Some (p, o) => Some (p, r :: o) | None => None end
              else Some (r, t)
  end.
Lemma pick_some : forall s p o, pick s = Some (p, o) -> Permutation s (p :: o) /\ hd 0 (fst p) <> 0.
Proof.
  induction s as [|r t IH]; intros p o H; cbn in H; [discriminate|].
  destruct (Reqb (hd 0 (fst r)) 0) eqn:E.
  - destruct (pick t) as [[p' o']|]; [|discriminate]. injection H as <- <-.
    destruct (IH p' o' eq_refl) as [A B]. split; [|exact B].
    rewrite A. apply perm_swap.
  - injection H as <- <-. split; [reflexivity|]. apply Reqb_false, E.
Qed.
Lemma pick_none : forall s, pick s = None -> Forall (fun r => hd 0 (fst r) = 0) s.
Proof.
  induction s as [|r t IH]; intros H; cbn in H; constructor.
  - destruct (Reqb (hd 0 (fst r)) 0) eqn:E; [apply Reqb_true, E|discriminate].
  - apply IH. destruct (Reqb (hd 0 (fst r)) 0); [|discriminate].
    destruct (pick t) as [[? ?]|]; [discriminate|reflexivity].
Qed.

Definition reduce (p r : list R * R) : list R * R :=
  let k := hd 0 (fst r) / hd 0 (fst p) in
  (axpy k (tl (fst r)) (tl (fst p)), snd r - k * snd p).

Fixpoint gauss (n : nat) (s : list (list R * R)) : list R :=
  match n with
  | O => []
  | S n' =>
      match pick s with
      | None => 0 :: gauss n' (map (fun r => (tl (fst r), snd r)) s)
      | Some (p, o) =>
          let y := gauss n' (map (reduce p) o) in
          (snd p - dotl (tl (fst p)) y) / hd 0 (fst p) :: y
      end
  end.

Definition rows (n : nat) (s : list (list R * R)) : Prop := Forall (fun r => length (fst r) = n) s.
Definition holds (s : list (list R * R)) (x : list R) : Prop := Forall (fun r => dotl (fst r) x = snd r) s.

Lemma rows_in : forall n s r, rows n s -> In r s -> length (fst r) = n.
Proof. intros n s r H. unfold rows in H. rewrite Forall_forall in H. apply H. Qed.
Lemma gauss_length : forall n s, length (gauss n s) = n.
Proof.
  induction n; intros s; cbn; [reflexivity|].
  destruct (pick s) as [[p o]|]; cbn; rewrite IHn; reflexivity.
Qed.
Lemma rows_tl : forall n s, rows (S n) s -> rows n (map (fun r => (tl (fst r), snd r)) s).
Proof.
  intros n s H. unfold rows in *. rewrite Forall_map. eapply Forall_impl; [|exact H].
  intros [[|a l] b] E; cbn in *; lia.
Qed.
Lemma rows_reduce : forall n p o, length (fst p) = S n -> rows (S n) o -> rows n (map (reduce p) o).
Proof.
  intros n [[|a l] b] o Hp H; cbn in Hp; [lia|]. unfold rows in *. rewrite Forall_map. eapply Forall_impl; [|exact H].
  intros [[|a' l'] b'] E; cbn in *; [lia|]. rewrite axpy_length; lia.
Qed.
(** The row [r] holds at [x0 :: y] when the pivot does and the reduced row holds at [y]. *)
Lemma reduce_holds : forall n p r x0 y, length (fst p) = S n -> length (fst r) = S n ->
  hd 0 (fst p) <> 0 -> hd 0 (fst p) * x0 + dotl (tl (fst p)) y = snd p ->
  (dotl (fst r) (x0 :: y) = snd r <-> dotl (fst (reduce p r)) y = snd (reduce p r)).
Proof.
  intros n [[|a l] b] [[|c m] d] x0 y Hp Hr Ha E; cbn in *; try lia.
  rewrite dotl_axpy by lia. subst b. split; intros H.
  - rewrite <- H. field. exact Ha.
  - apply (f_equal (fun z => z + c / a * (a * x0 + dotl l y))) in H.
    replace (dotl m y - c / a * dotl l y + c / a * (a * x0 + dotl l y)) with (c * x0 + dotl m y) in H
      by (field; exact Ha).
    rewrite H. ring.
Qed.

Lemma perm_rows : forall n s p o, rows n s -> Permutation s (p :: o) -> length (fst p) = n /\ rows n o.
Proof.
  intros n s p o H Pm. unfold rows in H. rewrite Pm in H. inversion H as [|? ? A B]. split; [exact A|exact B].
Qed.

Lemma gauss_holds : forall n s x, rows n s -> length x = n -> holds s x -> holds s (gauss n s).
Proof.
  induction n as [|n IH]; intros s x Hr Hx H.
  - destruct x; [|discriminate Hx]. exact H.
  - destruct x as [|x0 y]; [discriminate Hx|]. cbn in Hx. cbn [gauss].
    destruct (pick s) as [[p o]|] eqn:E.
    + destruct (pick_some s p o E) as [Pm Ha]. destruct (perm_rows _ _ _ _ Hr Pm) as [Hp Ho].
      unfold holds in H. rewrite Pm in H. inversion H as [|? ? H1 H2]; subst.
      set (y' := gauss n (map (reduce p) o)).
      assert (Ex : hd 0 (fst p) * x0 + dotl (tl (fst p)) y = snd p).
      { destruct p as [[|a l] b]; cbn in *; [lia|exact H1]. }
      assert (Hy : holds (map (reduce p) o) y).
      { unfold holds. rewrite Forall_map. rewrite Forall_forall in *. intros r In_r.
        apply (reduce_holds n p r x0 y); auto. apply (rows_in _ _ _ Ho In_r). }
      specialize (IH (map (reduce p) o) y (rows_reduce n p o Hp Ho) ltac:(lia) Hy). fold y' in IH.
      assert (Ey : hd 0 (fst p) * ((snd p - dotl (tl (fst p)) y') / hd 0 (fst p)) + dotl (tl (fst p)) y' = snd p)
        by (field; exact Ha).
      unfold holds. rewrite Pm. constructor.
      * destruct p as [[|a l] b]; cbn in *; [lia|exact Ey].
      * unfold holds in IH. rewrite Forall_map in IH. rewrite Forall_forall in *. intros r In_r.
        apply (reduce_holds n p r _ y'); auto. apply (rows_in _ _ _ Ho In_r).
    + pose proof (pick_none s E) as Z.
      specialize (IH (map (fun r => (tl (fst r), snd r)) s) y (rows_tl n s Hr) ltac:(lia)).
      assert (Hy : holds (map (fun r => (tl (fst r), snd r)) s) y).
      { unfold holds in *. rewrite Forall_map. rewrite Forall_forall in *. intros r In_r.
        specialize (H r In_r). specialize (Z r In_r). pose proof (rows_in _ _ _ Hr In_r) as Lr.
        destruct r as [[|a l] b]; cbn in *; [lia|]. subst a. lra. }
      specialize (IH Hy). unfold holds in *. rewrite Forall_map in IH. rewrite Forall_forall in *.
      intros r In_r. specialize (IH r In_r). specialize (Z r In_r). pose proof (rows_in _ _ _ Hr In_r) as Lr.
      destruct r as [[|a l] b]; cbn in *; [lia|]. subst a. lra.
Qed.

Lemma no_kernel_holds : forall n s, rows n s -> length s = n ->
  (forall x, length x = n -> Forall (fun r => dotl (fst r) x = 0) s -> x = repeat 0 n) ->
  exists x, length x = n /\ holds s x.
Proof.
  induction n as [|n IH]; intros s Hr Hl Inj.
  - destruct s; [|discriminate]. exists []. split; [reflexivity|constructor].
  - destruct (pick s) as [[p o]|] eqn:E.
    + destruct (pick_some s p o E) as [Pm Ha]. destruct (perm_rows _ _ _ _ Hr Pm) as [Hp Ho].
      assert (Lo : length (map (reduce p) o) = n).
      { rewrite map_length. apply Permutation_length in Pm. cbn in Pm. lia. }
      destruct (IH (map (reduce p) o) (rows_reduce n p o Hp Ho) Lo) as [y [Ly Hy]].
      * intros y Ly Ky. set (x0 := - dotl (tl (fst p)) y / hd 0 (fst p)).
        assert (K : x0 :: y = repeat 0 (S n)).
        { apply Inj; [cbn; lia|]. rewrite Pm. constructor.
          - destruct p as [[|a l] b]; cbn in *; [lia|]. unfold x0. field. exact Ha.
          - rewrite Forall_map in Ky. rewrite Forall_forall in *. intros r In_r. specialize (Ky r In_r).
            pose proof (rows_in _ _ _ Ho In_r) as Lr. destruct p as [[|a l] b], r as [[|c m] d]; cbn in *; try lia.
            rewrite dotl_axpy in Ky by lia. unfold x0.
            replace (c * (- dotl l y / a) + dotl m y) with (dotl m y - c / a * dotl l y) by (field; exact Ha).
            exact Ky. }
        cbn in K. injection K as _ K. exact K.
      * exists ((snd p - dotl (tl (fst p)) y) / hd 0 (fst p) :: y). split; [cbn; lia|].
        assert (Ey : hd 0 (fst p) * ((snd p - dotl (tl (fst p)) y) / hd 0 (fst p)) + dotl (tl (fst p)) y = snd p)
          by (field; exact Ha).
        unfold holds. rewrite Pm. constructor.
        -- destruct p as [[|a l] b]; cbn in *; [lia|exact Ey].
        -- unfold holds in Hy. rewrite Forall_map in Hy. rewrite Forall_forall in *. intros r In_r.
           apply (reduce_holds n p r _ y); auto. apply (rows_in _ _ _ Ho In_r).
    + pose proof (pick_none s E) as Z. exfalso.
      assert (K : 1 :: repeat 0 n = repeat 0 (S n)).
      { apply Inj; [cbn; rewrite repeat_length; reflexivity|].
        rewrite Forall_forall in *. intros r In_r.
        specialize (Z r In_r). pose proof (rows_in _ _ _ Hr In_r) as Lr. destruct r as [[|a l] b]; cbn in *; [lia|].
        rewrite dotl_repeat_0. lra. }
      cbn in K. injection K as K. lra.
Qed.

(** ** In terms of the specification *)
Definition gauss_solve (A : list (list R)) (b : list R) : list R := gauss (length A) (combine A b).

Lemma combine_rows : forall n A b, square n A -> length b = n -> rows n (combine A b).
Proof.
  intros n A b [HA HR] Hb. unfold rows. rewrite Forall_forall in *. intros [r v] H.
  apply in_combine_l in H. apply HR, H.
Qed.
Lemma combine_holds : forall n A b x, square n A -> length b = n -> length x = n ->
  (holds (combine A b) x <-> solution n A b x).
Proof.
  intros n A b x [HA _] Hb Hx. unfold holds, solution. rewrite Forall_forall. split.
  - intros H. split; [exact Hx|]. intros i Hi.
    specialize (H (nth i A [], nth i b 0)). cbn in H. apply H.
    rewrite <- combine_nth by lia. apply nth_In. rewrite combine_length. lia.
  - intros [_ H] [r v] In_r. apply (In_nth _ _ ([], 0)) in In_r. destruct In_r as [i [Hi E]].
    rewrite combine_length in Hi. rewrite combine_nth in E by lia. injection E as <- <-.
    cbn. apply H. lia.
Qed.

Lemma nonsingular_solvable : forall n A b, square n A -> length b = n -> nonsingular n A -> solvable n A b.
Proof.
  intros n A b Sq Hb Inj. destruct (no_kernel_holds n (combine A b)) as [x [Lx Hx]].
  - apply combine_rows; assumption.
  - rewrite combine_length. destruct Sq. lia.
  - intros x Lx K. apply Inj; [exact Lx|apply repeat_length|]. intros i Hi. rewrite dotl_repeat_0.
    rewrite Forall_forall in K. specialize (K (nth i A [], nth i b 0)). cbn in K. apply K.
    rewrite <- combine_nth by (destruct Sq; lia). apply nth_In. rewrite combine_length. destruct Sq. lia.
  - exists x. apply combine_holds; assumption.
Qed.

Lemma gauss_null : forall n s, Forall (fun r => Forall (fun a => a = 0) (fst r)) s -> gauss n s = repeat 0 n.
Proof.
  induction n as [|n IH]; intros s H; cbn; [reflexivity|].
  destruct (pick s) as [[p o]|] eqn:E.
  - destruct (pick_some s p o E) as [Pm Ha]. rewrite Pm in H. inversion H as [|? ? H1 _]; subst.
    destruct p as [[|a l] b]; cbn in *; [lra|]. inversion H1; subst. lra.
  - f_equal. apply IH. rewrite Forall_map. eapply Forall_impl; [|exact H].
    intros [[|a l] b] F; cbn in *; [constructor|]. inversion F; assumption.
Qed.

Theorem gauss_lu : lu_contract gauss_solve.
Proof.
  intros n A b Sq Hb. unfold gauss_solve. destruct Sq as [HA HR]. rewrite HA. split; [apply gauss_length|]. split.
  - intros [x [Lx Hx]]. apply combine_holds; [split; assumption|exact Hb|apply gauss_length|].
    apply (gauss_holds n _ x); [apply combine_rows; [split|]; assumption|exact Lx|].
    apply (combine_holds n); [split; assumption|assumption|assumption|split; assumption].
  - intros Z. apply gauss_null. rewrite Forall_forall in *. intros [r v] H. apply in_combine_l in H.
    cbn. apply Z, H.
Qed.

(** ** Vectors as functions *)
Lemma dotl_sumn : forall l m, length l = length m ->
  dotl l m = sumn (length l) (fun i => nth i l 0 * nth i m 0).
Proof.
  intros l. induction l as [|a l IH] using rev_ind; intros m H.
  - destruct m; [reflexivity|discriminate].
  - destruct m as [|b m _] using rev_ind; [rewrite app_length in H; cbn in H; lia|].
    rewrite !app_length in H. cbn in H. rewrite app_length. cbn [length]. rewrite Nat.add_1_r. cbn [sumn].
    replace (dotl (l ++ [a]) (m ++ [b])) with (dotl l m + a * b).
    + rewrite (IH m) by lia. f_equal.
      * apply sumn_ext. intros i Hi. rewrite !app_nth1 by lia. reflexivity.
      * rewrite !app_nth2 by lia. replace (length l - length l)%nat with 0%nat by lia.
        replace (length l - length m)%nat with 0%nat by lia. reflexivity.
    + assert (L : length l = length m) by lia. clear -L. revert m L.
      induction l as [|x l IH]; intros [|y m] L; cbn in *; try lia; [lra|]. rewrite <- IH by lia. lra.
Qed.
Lemma list_eq_nth : forall (l m : list R), length l = length m ->
  (forall i, (i < length l)%nat -> nth i l 0 = nth i m 0) -> l = m.
Proof. intros l m L H. apply (nth_ext l m 0 0 L H). Qed.

Definition entry (A : list (list R)) (i j : nat) : R := nth j (nth i A []) 0.
Lemma square_row : forall n A i, square n A -> (i < n)%nat -> length (nth i A []) = n.
Proof. intros n A i [HA HR] Hi. rewrite Forall_forall in HR. apply HR, nth_In. lia. Qed.
Lemma row_sumn : forall n A x i, square n A -> length x = n -> (i < n)%nat ->
  dotl (nth i A []) x = sumn n (fun j => entry A i j * nth j x 0).
Proof.
  intros n A x i Sq Lx Hi. rewrite dotl_sumn by (rewrite (square_row n A i Sq Hi); lia).
  rewrite (square_row n A i Sq Hi). reflexivity.
Qed.
Lemma form_quad : forall n A x, square n A -> length x = n -> form A x = quad n (fun i => nth i x 0) (entry A).
Proof.
  intros n A x Sq Lx. destruct Sq as [HA HR]. unfold form, mat_vec.
  rewrite dotl_sumn by (rewrite map_length; lia). rewrite Lx, quad_row. apply sumn_ext. intros i Hi.
  f_equal. rewrite (nth_indep _ 0 (dotl [] x)) by (rewrite map_length; lia).
  rewrite (map_nth (fun row => dotl row x)). apply (row_sumn n); [split; assumption|exact Lx|exact Hi].
Qed.
(** A matrix whose only null vector is null. *)
Lemma kernel_nonsingular : forall n A, square n A ->
  (forall c, (forall i, (i < n)%nat -> sumn n (fun j => entry A i j * c j) = 0) -> forall i, (i < n)%nat -> c i = 0) ->
  nonsingular n A.
Proof.
  intros n A Sq K x y Lx Ly E. apply list_eq_nth; [lia|]. intros i Hi.
  assert (Z : nth i x 0 - nth i y 0 = 0); [|lra].
  apply (K (fun i => nth i x 0 - nth i y 0)); [|lia]. intros j Hj. specialize (E j Hj).
  rewrite (row_sumn n A x j), (row_sumn n A y j) in E by assumption.
  rewrite (sumn_ext n _ (fun k => entry A j k * nth k x 0 - entry A j k * nth k y 0)) by (intros; ring).
  rewrite sumn_minus, E. lra.
Qed.
Lemma PD_positive_definite : forall n A, square n A -> PD n (entry A) -> positive_definite n A.
Proof.
  intros n A Sq H x Lx Nz. rewrite (form_quad n A x Sq Lx). apply H.
  destruct (nonzero_dec n (fun i => nth i x 0)) as [N|Z]; [exact N|exfalso]. apply Nz.
  apply list_eq_nth; [rewrite repeat_length; exact Lx|]. intros i Hi. rewrite Z by lia.
  symmetry. apply nth_repeat.
Qed.
Lemma vector_of : forall n (c : nat -> R), exists x, length x = n /\ forall i, (i < n)%nat -> nth i x 0 = c i.
Proof.
  intros n c. exists (map c (seq 0 n)). split; [rewrite map_length, seq_length; reflexivity|].
  intros i Hi. rewrite (nth_indep _ 0 (c 0%nat)) by (rewrite map_length, seq_length; exact Hi).
  rewrite map_nth, seq_nth by exact Hi. reflexivity.
Qed.
Lemma positive_definite_PD : forall n A, square n A -> positive_definite n A -> PD n (entry A).
Proof.
  intros n A Sq H c [i [Hi Hc]]. destruct (vector_of n c) as [x [Lx Ex]].
  rewrite <- (quad_ext n (fun i => nth i x 0) c (entry A)) by (intros; try apply Ex; auto).
  rewrite <- (form_quad n A x Sq Lx). apply H; [exact Lx|]. intros ->. apply Hc.
  rewrite <- Ex by exact Hi. apply nth_repeat.
Qed.
Lemma positive_definite_nonsingular : forall n A, square n A -> positive_definite n A -> nonsingular n A.
Proof.
  intros n A Sq H. apply kernel_nonsingular; [exact Sq|]. intros c Z.
  apply (PD_injective n (entry A)); [apply positive_definite_PD; assumption|exact Z].
Qed.

(** A solver for the contract of LDLT. *)
Definition null_diagonal (A : list (list R)) : bool :=
  forallb (fun i => Reqb (entry A i i) 0) (seq 0 (length A)).
Definition gauss_ldlt (A : list (list R)) (b : list R) : list R :=
  if null_diagonal A then repeat 0 (length A) else gauss_solve A b.
Theorem gauss_ldlt_ok : ldlt_contract gauss_ldlt.
Proof.
  intros n A b Sq Hb. destruct (gauss_lu n A b Sq Hb) as [L [Sv _]].
  assert (HA : length A = n) by apply Sq. unfold gauss_ldlt.
  destruct (null_diagonal A) eqn:E.
  - rewrite HA. split; [apply repeat_length|]. split.
    + intros _ H. destruct n as [|n]; [split; [reflexivity|intros; lia]|exfalso].
      apply positive_definite_PD in H; [|exact Sq].
      specialize (H (fun i => if (i =? n)%nat then 1 else 0)).
      rewrite quad_S, quad_zero, sumn_0 in H.
      * rewrite Nat.eqb_refl in H. unfold null_diagonal in E. rewrite forallb_forall in E.
        specialize (E n ltac:(apply in_seq; lia)). apply Reqb_true in E. rewrite E in H.
        assert (N : nonzero (S n) (fun i => if (i =? n)%nat then 1 else 0)).
        { exists n. split; [lia|]. cbv beta. rewrite Nat.eqb_refl. lra. }
        specialize (H N). lra.
      * intros i Hi. destruct (Nat.eqb_spec i n); [lia|lra].
      * intros i Hi. destruct (Nat.eqb_spec i n); [lia|reflexivity].
    + intros _. reflexivity.
  - split; [exact L|]. split.
    + intros _ H. apply Sv, nonsingular_solvable; [exact Sq|exact Hb|].
      apply positive_definite_nonsingular; assumption.
    + intros Z. exfalso. unfold null_diagonal in E.
      assert (T : forallb (fun i => Reqb (entry A i i) 0) (seq 0 (length A)) = true); [|congruence].
      apply forallb_forall. intros i Hi. apply in_seq in Hi. apply Reqb_true, Z. lia.
Qed.
