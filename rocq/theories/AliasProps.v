(** Theorems about the operators [+=] on memory (C132). *)
From Verif Require Import Base StatsModel StatsSpec StatsProofs StatsProps HistModel BinningModel Hist2dModel AliasModel.
Open Scope Z_scope.

Lemma same_place_iff p q : same_place p q = true <-> p = q.
Proof.
  destruct p as [[o i] j], q as [[o' i'] j']. unfold same_place. rewrite !andb_true_iff, Nat.eqb_eq, !Z.eqb_eq. split.
  - intros [[-> ->] ->]. reflexivity.
  - intros [= -> -> ->]. auto.
Qed.
Lemma get_set {A} (m : memory A) p q v : get (set m p v) q = if same_place q p then v else get m q.
Proof. destruct q as [[o i] j]. reflexivity. Qed.
Lemma get_set_same {A} (m : memory A) p v : get (set m p v) p = v.
Proof. rewrite get_set. rewrite (proj2 (same_place_iff p p) eq_refl). reflexivity. Qed.
Lemma get_set_other {A} (m : memory A) p q v : q <> p -> get (set m p v) q = get m q.
Proof. intro H. rewrite get_set. destruct (same_place q p) eqn:E; [apply same_place_iff in E; contradiction|reflexivity]. Qed.
Lemma same_place_refl p : same_place p p = true.
Proof. apply same_place_iff. reflexivity. Qed.
Lemma same_place_neq p q : p <> q -> same_place p q = false.
Proof. intro H. destruct (same_place p q) eqn:E; [apply same_place_iff in E; contradiction|reflexivity]. Qed.

Lemma set_set {A} (m : memory A) p v w q : get (set (set m p v) p w) q = get (set m p w) q.
Proof. rewrite !get_set. destruct (same_place q p); reflexivity. Qed.

Lemma run_other {A} l r (st : list (A -> A -> A)) p : p <> l -> forall m, get (run m l r st) p = get m p.
Proof. intro H. induction st as [|f st IH]; intro m; [reflexivity|]. cbn [run]. rewrite IH. apply get_set_other. exact H. Qed.
Lemma run_self {A} l (st : list (A -> A -> A)) : forall m, get (run m l l st) l = fold_left (fun a f => f a a) st (get m l).
Proof. induction st as [|f st IH]; intro m; [reflexivity|]. cbn [run fold_left]. rewrite IH, get_set_same. reflexivity. Qed.
Lemma run_two {A} l r (st : list (A -> A -> A)) : r <> l -> forall m, get (run m l r st) l = fold_left (fun a f => f a (get m r)) st (get m l).
Proof.
  intro H. induction st as [|f st IH]; intro m; [reflexivity|]. cbn [run fold_left]. rewrite IH, get_set_same, (get_set_other _ _ _ _ H). reflexivity.
Qed.

(** [l += r] gives the combination of the two values, and changes nothing else, ALSO when [l] and [r] are the same
    object. *)
Theorem C132_statistics : forall m l r p,
  get (stats_iadd m l r) p = if same_place p l then acc_merge (get m l) (get m r) else get m p.
Proof.
  intros m l r p. destruct (same_place p l) eqn:P.
  2:{ assert (p <> l) by (intro E; apply same_place_iff in E; congruence). unfold stats_iadd. rewrite !run_other by assumption. reflexivity. }
  apply same_place_iff in P. subst p. unfold stats_iadd. destruct (same_place r l) eqn:RL.
  - apply same_place_iff in RL. subst r. rewrite !run_self. destruct (get m l) as [c w me mn mx su m2 m3 m4]. unfold min_max, moments, acc_merge.
    cbn [fold_left]. cbn [a_min a_max set_min set_max]. destruct (nlt mn mn); cbn [a_min a_max set_min set_max]; destruct (nlt mx mx); reflexivity.
  - assert (NE : r <> l) by (intro E; apply same_place_iff in E; congruence).
    rewrite !run_two, !run_other by exact NE.
    destruct (get m l) as [c w me mn mx su m2 m3 m4], (get m r) as [c' w' me' mn' mx' su' m2' m3' m4']. unfold min_max, moments, acc_merge.
    cbn [fold_left a_min a_max set_min set_max]. destruct (nlt mn' mn); cbn [a_min a_max set_min set_max]; destruct (nlt mx mx'); reflexivity.
Qed.
Print Assumptions C132_statistics.

(** All the cells of an array of statistics, of a binning. *)
Lemma pair_neq (l r : nat) (i j i' j' : Z) : (i, j) <> (i', j') -> (l, i, j) <> (r, i', j').
Proof. intros H E. apply H. congruence. Qed.
Theorem C132_array : forall cs m l r o i j, NoDup cs ->
  array_iadd m l r cs o i j = if (o =? l)%nat && existsb (fun c => (fst c =? i) && (snd c =? j)) cs then acc_merge (m l i j) (m r i j) else m o i j.
Proof.
  induction cs as [|[a b] cs IH]; intros m l r o i j ND; [rewrite andb_false_r; reflexivity|]. inversion ND as [|x y NI ND']; subst.
  cbn [array_iadd existsb fst snd]. rewrite (IH _ _ _ _ _ _ ND').
  assert (G : forall o' i' j', stats_iadd m (l, a, b) (r, a, b) o' i' j' = if same_place (o', i', j') (l, a, b) then acc_merge (m l a b) (m r a b) else m o' i' j')
    by (intros; exact (C132_statistics m (l, a, b) (r, a, b) (o', i', j'))).
  rewrite !G. unfold same_place. destruct (Z.eqb_spec a i) as [->|NA]; destruct (Z.eqb_spec b j) as [->|NB]; cbn [andb orb].
  - assert (X : existsb (fun c => (fst c =? i) && (snd c =? j)) cs = false).
    { destruct (existsb _ cs) eqn:E; [|reflexivity]. apply existsb_exists in E as ([u v] & I & Q). apply andb_true_iff in Q as [Q1 Q2]. apply Z.eqb_eq in Q1, Q2. cbn in Q1, Q2. subst. contradiction. }
    rewrite X, andb_false_r, !Z.eqb_refl, !andb_true_r. destruct (Nat.eqb_spec o l); reflexivity.
  - rewrite (proj2 (Z.eqb_neq j b)) by congruence. rewrite !andb_false_r. reflexivity.
  - rewrite (proj2 (Z.eqb_neq i a)) by congruence. rewrite !andb_false_r. reflexivity.
  - rewrite (proj2 (Z.eqb_neq i a)) by congruence. rewrite !andb_false_r. reflexivity.
Qed.
Print Assumptions C132_array.
Lemma cell_spec m l r p : get (cell_iadd m l r) p = if same_place p l then merge_cell (get m l) (get m r) else get m p.
Proof.
  unfold cell_iadd, merge_cell. destruct (_ && _); [rewrite get_set; reflexivity|]. destruct (_ && _); [apply C132_statistics|].
  destruct (same_place p l) eqn:E; [apply same_place_iff in E; subst; reflexivity|reflexivity].
Qed.
Theorem C132_binning : forall cs m l r o i j, NoDup cs ->
  binning_iadd m l r cs o i j = if (o =? l)%nat && existsb (fun c => (fst c =? i) && (snd c =? j)) cs then merge_cell (m l i j) (m r i j) else m o i j.
Proof.
  induction cs as [|[a b] cs IH]; intros m l r o i j ND; [rewrite andb_false_r; reflexivity|]. inversion ND as [|x y NI ND']; subst.
  cbn [binning_iadd existsb fst snd]. rewrite (IH _ _ _ _ _ _ ND').
  assert (G : forall o' i' j', cell_iadd m (l, a, b) (r, a, b) o' i' j' = if same_place (o', i', j') (l, a, b) then merge_cell (m l a b) (m r a b) else m o' i' j')
    by (intros; exact (cell_spec m (l, a, b) (r, a, b) (o', i', j'))).
  rewrite !G. unfold same_place. destruct (Z.eqb_spec a i) as [->|NA]; destruct (Z.eqb_spec b j) as [->|NB]; cbn [andb orb].
  - assert (X : existsb (fun c => (fst c =? i) && (snd c =? j)) cs = false).
    { destruct (existsb _ cs) eqn:E; [|reflexivity]. apply existsb_exists in E as ([u v] & I & Q). apply andb_true_iff in Q as [Q1 Q2]. apply Z.eqb_eq in Q1, Q2. cbn in Q1, Q2. subst. contradiction. }
    rewrite X, andb_false_r, !Z.eqb_refl, !andb_true_r. destruct (Nat.eqb_spec o l); reflexivity.
  - rewrite (proj2 (Z.eqb_neq j b)) by congruence. rewrite !andb_false_r. reflexivity.
  - rewrite (proj2 (Z.eqb_neq i a)) by congruence. rewrite !andb_false_r. reflexivity.
  - rewrite (proj2 (Z.eqb_neq i a)) by congruence. rewrite !andb_false_r. reflexivity.
Qed.
Print Assumptions C132_binning.

(** [s += s]: the statistics are those of the samples counted twice. *)
Theorem C132_twice : forall m l x, get m l = push_all_weighted x -> positive_weights (defined x) -> defined x <> [] ->
  textbook (get (stats_iadd m l l) l) (defined (x ++ x)) /\
  extremes (get (stats_iadd m l l) l) (map (fun s => (snd s * fst s)%Q) (defined (x ++ x))).
Proof.
  intros m l x E P Hn. rewrite C132_statistics, same_place_refl, E.
  assert (P2 : positive_weights (defined (x ++ x))).
  { rewrite defined_app. intros s H. apply in_app_or in H. destruct H as [H|H]; exact (P s H). }
  assert (N2 : defined (x ++ x) <> []) by (rewrite defined_app; destruct (defined x); [contradiction|discriminate]).
  destruct (C36_merge x x P2 N2) as [A B]. split; [exact A|apply B; exact Hn].
Qed.
Print Assumptions C132_twice.

(** ** Histograms *)
Lemma for_two : forall n m l r k, r <> l -> (k + n = length (h_bins (get m r)))%nat ->
  match for_bins m l r true (seq k n), update_all (h_bins (get m l)) (skipn k (h_bins (get m r))) with
  | Ok m', Ok bins => forall p, get m' p = if same_place p l then set_bins (get m l) bins else get m p
  | UB a, UB b => a = b
  | Throw a, Throw b => a = b
  | _, _ => False
  end.
Proof.
  induction n as [|n IH]; intros m l r k NE L.
  - cbn [seq for_bins negb]. rewrite skipn_all2 by lia. cbn [update_all]. intro p. destruct (same_place p l) eqn:E; [|reflexivity].
    apply same_place_iff in E. subst. destruct (get m l); reflexivity.
  - cbn [seq for_bins negb].
    destruct (nth_error (h_bins (get m r)) k) as [item|] eqn:N; [|apply nth_error_None in N; lia].
    assert (SK : skipn k (h_bins (get m r)) = item :: skipn (S k) (h_bins (get m r))).
    { clear - N. revert k N. induction (h_bins (get m r)) as [|b l IH]; intros [|k] N; try discriminate; [injection N as ->; reflexivity|]. cbn [skipn]. apply IH. exact N. }
    rewrite SK. cbn [update_all]. destruct (update_bins (h_bins (get m l)) (bvalue item) (bweight item)) as [bins|w|w]; cbn [obind]; [|reflexivity|reflexivity].
    assert (SP : same_place l r = false) by (apply same_place_neq; congruence). rewrite SP. cbn [andb negb].
    specialize (IH (set m l (set_bins (get m l) bins)) l r (S k) NE). rewrite (get_set_other _ _ _ _ NE), get_set_same in IH. cbn [set_bins h_bins] in IH.
    specialize (IH ltac:(lia)). fold (set_bins (get m l) bins) in *. destruct (for_bins _ l r true (seq (S k) n)) as [m'|w|w]; destruct (update_all bins _) as [b'|w'|w']; auto.
    intro p. rewrite IH. rewrite get_set. destruct (same_place p l); reflexivity.
Qed.
(** Two different histograms: [l += r] gives the combination of the two values and does not change [r]. *)
Theorem C132_histogram : forall lg m l r, r <> l ->
  match hist_iadd lg m l r, hist_merge lg (get m l) (get m r) with
  | Ok m', Ok h => forall p, get m' p = if same_place p l then h else get m p
  | UB a, UB b => a = b
  | Throw a, Throw b => a = b
  | _, _ => False
  end.
Proof.
  intros lg m l r NE. unfold hist_iadd, hist_merge. cbv zeta.
  set (m1 := set m l _). set (m2 := if Qltb (h_min (get m1 r)) _ then _ else m1). set (m3 := if Qltb (h_max (get m2 l)) _ then _ else m2).
  assert (O3 : forall q, q <> l -> get m3 q = get m q).
  { intros q H. unfold m3, m2, m1. destruct (Qltb _ _); destruct (Qltb _ _); rewrite ?get_set_other by exact H; reflexivity. }
  set (mn := if Qltb (h_min (get m r)) (h_min (get m l)) then h_min (get m r) else h_min (get m l)).
  set (mx := if Qltb (h_max (get m l)) (h_max (get m r)) then h_max (get m r) else h_max (get m l)).
  assert (L3 : get m3 l = Hist (h_weighted (get m l)) (h_bin_count (get m l)) (h_count (get m l) + h_count (get m r)) mn mx (h_bins (get m l))).
  { assert (A1 : get m1 l = set_hcount (get m l) (h_count (get m l) + h_count (get m r))) by apply get_set_same.
    assert (R1 : get m1 r = get m r) by (apply get_set_other; exact NE).
    assert (A2 : get m2 l = set_hmin (get m1 l) mn).
    { unfold m2, mn. rewrite R1, A1. cbn [set_hcount h_min]. destruct (Qltb (h_min (get m r)) (h_min (get m l))); [rewrite get_set_same; reflexivity|]. rewrite A1. reflexivity. }
    assert (R2 : get m2 r = get m r) by (unfold m2; destruct (Qltb _ _); rewrite ?get_set_other by exact NE; exact R1).
    unfold m3. rewrite R2, A2, A1. cbn [set_hmin set_hcount h_max]. unfold mx. destruct (Qltb (h_max (get m l)) (h_max (get m r))); [rewrite get_set_same; reflexivity|].
    rewrite A2, A1. reflexivity. }
  clearbody m3. clear m1 m2.
  assert (F := for_two (length (h_bins (get m3 r))) m3 l r 0%nat NE eq_refl). cbn [skipn] in F.
  rewrite (O3 r NE) in *. rewrite L3 in F. cbn [h_bins] in F.
  destruct (for_bins m3 l r true _) as [m'|w|w]; destruct (update_all (h_bins (get m l)) (h_bins (get m r))) as [b|w'|w']; cbn [obind] in *; try contradiction; try exact F.
  rewrite F, same_place_refl. unfold set_bins. cbn [h_weighted h_bin_count h_count h_min h_max].
  destruct (trim lg _) as [h|w|w]; cbn [obind]; [|reflexivity|reflexivity].
  intro p. rewrite get_set. destruct (same_place p l) eqn:E; [reflexivity|]. rewrite F, E. apply O3. intro X. apply same_place_iff in X. congruence.
Qed.
Print Assumptions C132_histogram.

(** One histogram that is not empty: [h += h] inserts bins in the vector it is going through, which is undefined. *)
Theorem C132_self_refuted : forall lg m l, h_bins (get m l) <> [] -> exists w, hist_iadd lg m l l = UB w.
Proof.
  intros lg m l NE. unfold hist_iadd. cbv zeta. set (m1 := set m l _). set (m2 := if Qltb (h_min (get m1 l)) _ then _ else m1). set (m3 := if Qltb (h_max (get m2 l)) _ then _ else m2).
  assert (B : h_bins (get m3 l) = h_bins (get m l)).
  { assert (B1 : h_bins (get m1 l) = h_bins (get m l)) by (unfold m1; rewrite get_set_same; reflexivity).
    assert (B2 : h_bins (get m2 l) = h_bins (get m l)) by (unfold m2; match goal with |- context [if ?c then _ else _] => destruct c end; [rewrite get_set_same|]; exact B1).
    unfold m3. match goal with |- context [if ?c then _ else _] => destruct c end; [rewrite get_set_same|]; exact B2. }
  clearbody m3. destruct (h_bins (get m l)) as [|b t] eqn:E; [contradiction|]. clear NE.
  rewrite B. cbn [length seq for_bins negb]. rewrite B. cbn [nth_error update_bins]. rewrite (proj2 (Qle_bool_iff _ _) (Qle_refl _)).
  cbn [obind length]. rewrite same_place_refl. assert (N : (S (S (length t)) =? S (length t))%nat = false) by (apply Nat.eqb_neq; lia). rewrite N. cbn [negb andb].
  destruct (seq 1 (length t)); cbn [for_bins negb obind]; eexists; reflexivity.
Qed.
Print Assumptions C132_self_refuted.
(** The same for an array of histograms, or for a grid, as soon as one cell is not empty. *)
Theorem C132_self_array_refuted : forall lg cs m l, (exists i j, In (i, j) cs /\ h_bins (m l i j) <> []) -> exists w, hist2_iadd lg m l l cs = UB w.
Proof.
  induction cs as [|[a b] cs IH]; intros m l (i & j & I & NE); [contradiction|]. cbn [hist2_iadd]. unfold hcell_iadd. cbn [get].
  destruct (h_bins (m l a b)) as [|x t] eqn:E.
  - cbn [zlen length Z.of_nat Z.eqb andb negb obind]. change (zlen (@nil bin) =? 0) with true. cbn [andb negb obind]. apply IH. exists i, j. split; [|exact NE].
    destruct I as [I|I]; [|exact I]. injection I as -> ->. contradiction.
  - replace (zlen (x :: t) =? 0) with false by (symmetry; apply Z.eqb_neq; unfold zlen; cbn [length]; lia). cbn [andb negb].
    destruct (C132_self_refuted lg m (l, a, b)) as [w W]; [cbn [get]; rewrite E; discriminate|]. rewrite W. cbn [obind]. eexists; reflexivity.
Qed.
Print Assumptions C132_self_array_refuted.

(** Two different grids: the loop on memory gives, for the cells of the left grid, what [Hist2dModel.merge_loop] (C102)
    gives, and changes no other object. *)
Lemma hcell_two lg m l r : r <> l ->
  match hcell_iadd lg m l r, merge_cell2 lg (get m l) (get m r) with
  | Ok m', Ok h => forall p, get m' p = if same_place p l then h else get m p
  | UB a, UB b => a = b
  | Throw a, Throw b => a = b
  | _, _ => False
  end.
Proof.
  intro NE. unfold hcell_iadd, merge_cell2. destruct (_ && _); [intro p; apply get_set|]. destruct (_ && _); [apply C132_histogram; exact NE|].
  intro p. destruct (same_place p l) eqn:E; [apply same_place_iff in E; subst; reflexivity|reflexivity].
Qed.
Lemma merge_loop_ext lg cs : forall a a' b b', (forall i j, a i j = a' i j) -> (forall i j, b i j = b' i j) ->
  match merge_loop lg a b cs, merge_loop lg a' b' cs with
  | Ok x, Ok y => forall i j, x i j = y i j
  | UB x, UB y => x = y
  | Throw x, Throw y => x = y
  | _, _ => False
  end.
Proof.
  induction cs as [|[i j] cs IH]; intros a a' b b' A B; [exact A|]. cbn [merge_loop]. rewrite A, B.
  destruct (merge_cell2 lg (a' i j) (b' i j)); cbn [obind]; [|reflexivity|reflexivity]. apply IH; [|exact B].
  intros u v. unfold upd. rewrite A. reflexivity.
Qed.
Theorem C132_grids : forall lg cs m l r, r <> l ->
  match hist2_iadd lg m l r cs, merge_loop lg (m l) (m r) cs with
  | Ok m', Ok g => forall o i j, m' o i j = if (o =? l)%nat then g i j else m o i j
  | UB a, UB b => a = b
  | Throw a, Throw b => a = b
  | _, _ => False
  end.
Proof.
  induction cs as [|[a b] cs IH]; intros m l r NE.
  - cbn [hist2_iadd merge_loop]. intros o i j. destruct (Nat.eqb_spec o l); [subst|]; reflexivity.
  - cbn [hist2_iadd merge_loop]. assert (H := hcell_two lg m (l, a, b) (r, a, b) ltac:(congruence)). cbn [get] in H.
    destruct (hcell_iadd lg m (l, a, b) (r, a, b)) as [m1|w|w]; destruct (merge_cell2 lg (m l a b) (m r a b)) as [h|w'|w']; cbn [obind]; try contradiction; try exact H.
    assert (G : forall o i j, m1 o i j = if same_place (o, i, j) (l, a, b) then h else m o i j) by (intros o i j; exact (H (o, i, j))).
    specialize (IH m1 l r NE).
    assert (X := merge_loop_ext lg cs (m1 l) (upd (m l) a b h) (m1 r) (m r)).
    assert (X1 : forall i j, m1 l i j = upd (m l) a b h i j).
    { intros i j. rewrite G. unfold same_place, upd. rewrite Nat.eqb_refl. reflexivity. }
    assert (X2 : forall i j, m1 r i j = m r i j).
    { intros i j. rewrite G. unfold same_place. rewrite (proj2 (Nat.eqb_neq r l) NE). reflexivity. }
    specialize (X X1 X2).
    destruct (hist2_iadd lg m1 l r cs) as [m'|w|w]; destruct (merge_loop lg (m1 l) (m1 r) cs) as [g|w'|w']; try contradiction;
      destruct (merge_loop lg (upd (m l) a b h) (m r) cs) as [g'|w2|w2]; try contradiction; try congruence.
    intros o i j. rewrite IH. destruct (Nat.eqb_spec o l) as [->|NO]; [apply X|]. rewrite G. unfold same_place.
    rewrite (proj2 (Nat.eqb_neq o l) NO). reflexivity.
Qed.
Print Assumptions C132_grids.
(** An array of histograms added to itself, as soon as one cell is not empty. *)
Lemma hist_iadd_empty lg m l : h_bins (get m l) = [] -> (exists w, hist_iadd lg m l l = UB w) \/ exists m', hist_iadd lg m l l = Ok m' /\ forall p, p <> l -> get m' p = get m p.
Proof.
  intro E. unfold hist_iadd. cbv zeta. set (m1 := set m l _). set (m2 := if Qltb (h_min (get m1 l)) _ then _ else m1). set (m3 := if Qltb (h_max (get m2 l)) _ then _ else m2).
  assert (B : h_bins (get m3 l) = [] /\ forall p, p <> l -> get m3 p = get m p).
  { assert (B1 : h_bins (get m1 l) = [] /\ forall p, p <> l -> get m1 p = get m p) by (unfold m1; rewrite get_set_same; split; [exact E|intros; apply get_set_other; assumption]).
    assert (B2 : h_bins (get m2 l) = [] /\ forall p, p <> l -> get m2 p = get m p).
    { unfold m2. match goal with |- context [if ?c then _ else _] => destruct c end; [|exact B1]. split; [rewrite get_set_same; apply B1|]. intros p H. rewrite get_set_other by exact H. apply B1; exact H. }
    unfold m3. match goal with |- context [if ?c then _ else _] => destruct c end; [|exact B2]. split; [rewrite get_set_same; apply B2|]. intros p H. rewrite get_set_other by exact H. apply B2; exact H. }
  clearbody m3. destruct B as [B O]. rewrite B. cbn [length seq for_bins negb obind]. unfold trim. rewrite B. cbn [length trim_loop].
  destruct (h_bin_count (get m3 l) <? zlen []).
  - left. unfold min_index. cbn. eexists; reflexivity.
  - right. cbn [obind]. eexists. split; [reflexivity|]. intros p H. rewrite get_set_other by exact H. apply O. exact H.
Qed.
Theorem C132_self_list_refuted : forall lg cs m l, NoDup cs -> (exists i j, In (i, j) cs /\ h_bins (m l i j) <> []) -> exists w, harray_iadd lg m l l cs = UB w.
Proof.
  induction cs as [|[a b] cs IH]; intros m l ND (i & j & I & NE); [contradiction|]. inversion ND as [|x y NI ND']; subst. cbn [harray_iadd].
  destruct (h_bins (m l a b)) as [|x t] eqn:E.
  - destruct (hist_iadd_empty lg m (l, a, b) E) as [[w ->]|(m' & -> & O)]; cbn [obind]; [eexists; reflexivity|]. apply IH; [exact ND'|]. exists i, j.
    destruct I as [I|I]; [injection I as -> ->; contradiction|]. split; [exact I|].
    assert (X : m' l i j = m l i j) by (apply (O (l, i, j)); intro Q; apply NI; congruence). rewrite X. exact NE.
  - destruct (C132_self_refuted lg m (l, a, b)) as [w W]; [cbn [get]; rewrite E; discriminate|]. rewrite W. cbn [obind]. eexists; reflexivity.
Qed.
Print Assumptions C132_self_list_refuted.

Example C132_ex : let m : memory hist := fun o _ _ => Hist false 100 1 5 5 [(5%Q, 1%Q)] in
  (exists w, hist_iadd (fun x => x) m (0%nat, 0, 0) (0%nat, 0, 0) = UB w) /\
  (exists m', hist_iadd (fun x => x) m (0%nat, 0, 0) (1%nat, 0, 0) = Ok m' /\ h_count (m' 0%nat 0 0) = 2 /\ h_count (m' 1%nat 0 0) = 1).
Proof. cbv zeta. split; [eexists; reflexivity|]. eexists. split; [reflexivity|]. split; reflexivity. Qed.
