(** Lemmas about the grid of streaming histograms. *)
From Verif Require Import Base BaseProofs AxisModel AxisSpec AxisProofs AxisProofs2 AxisProofs5 HistModel HistSpec HistProofs HistProofs2 HistProps HistSerModel HistSerProofs Hist2dModel Hist2dSpec BinningModel BinningSpec BinningHistory BinningProofs BinningProofs4.
From Coq Require Import Permutation.
Open Scope Z_scope.

Definition units (l : list Q) : list (Q * Q) := map (fun v => (v, 1%Q)) l.
Lemma units_app : forall l m, units (l ++ m) = units l ++ units m.
Proof. intros. apply map_app. Qed.
Lemma units_fst : forall l, map fst (units l) = l.
Proof. intro l. unfold units. rewrite map_map. cbn [fst]. apply map_id. Qed.
Lemma units_weight : forall l, (sum_over (fun _ => 1%Q) (units l) == inject_Z (zlen l))%Q.
Proof.
  induction l as [|v l IH]; [reflexivity|]. unfold zlen in *. cbn [units map sum_over length]. rewrite Nat2Z.inj_succ, <- Z.add_1_r, inject_Z_plus. fold (units l). rewrite IH. change (inject_Z 1) with 1%Q. ring.
Qed.
Lemma units_sum : forall l, (sum_over (fun v => v) (units l) == qsum l)%Q.
Proof. induction l as [|v l IH]; [reflexivity|]. cbn [units map sum_over qsum]. fold (units l). rewrite IH. ring. Qed.
Lemma units_ones : forall l, Forall (fun s => snd s = 1%Q) (units l).
Proof. induction l; constructor; auto. Qed.

Section Cells.
  Variable lg : Q -> Q.
  Hypothesis L : small_log lg.

  Definition cell_ok (n : Z) (c : hist) (l : list Q) : Prop :=
    exists H, careful H /\ HistModel.run lg H = Ok c /\ pushed H = units l /\ budget H = n.
  Lemma summary_of : forall n c l, cell_ok n c l -> summary n c l.
  Proof.
    intros n c l (H & C & E & P & B).
    destruct (C38_budget_sorted lg H L C) as (s0 & E0 & B0 & A0 & W0). rewrite E in E0. injection E0 as <-.
    destruct (C39_conservation lg H L C) as (s0 & E0 & N0 & S0 & M0). rewrite E in E0. injection E0 as <-.
    destruct (run_inv lg H L C) as (s0 & E0 & I). rewrite E in E0. injection E0 as <-.
    rewrite P in *. unfold summary. rewrite N0, B in *. split; [unfold zlen, units; rewrite map_length; reflexivity|]. split; [exact B0|]. split; [exact A0|]. split; [rewrite S0; apply units_weight|].
    assert (NE : forall l : list Q, l <> [] -> units l <> []) by (intros [|]; [congruence|discriminate]).
    split.
    - intros ->. pose proof (proj2 (i_empty _ _ I) P) as EB. split; [exact EB|]. unfold hist_get_min, hist_get_max, hist_mean. rewrite N0, EB. auto.
    - intro Hl. split; [|split; [|split]].
      + destruct (M0 (NE _ Hl)) as (m & Em & Mm). exists m. split; [exact Em|]. rewrite Mm, units_weight, units_sum. reflexivity.
      + destruct (C40_minimum lg H L C) as (s0 & m & E0 & Em & Lm); [rewrite P; apply NE, Hl|rewrite P; apply units_ones|]. rewrite E in E0. injection E0 as <-. exists m. split; [exact Em|]. rewrite P, units_fst in Lm. exact Lm.
      + assert (G : exists m, hist_get_max c = Some m).
        { unfold hist_get_max. rewrite N0. destruct l as [|v l]; [congruence|]. unfold units, zlen. cbn [map length]. destruct (Z.eqb_spec (Z.of_nat (S (length (map (fun v => (v, 1%Q)) l)))) 0); [lia|]. eexists. reflexivity. }
        destruct G as (m & Em). exists m. split; [exact Em|]. intros (v & Iv & Dv).
        destruct (C40_maximum_partial lg H L C) as (s0 & m0 & E0 & Em0 & Lm); [rewrite P; apply units_ones|exists (v, 1%Q); split; [rewrite P; apply in_map_iff; eauto|exact Dv]|]. rewrite E in E0. injection E0 as <-. rewrite Em in Em0. injection Em0 as <-. rewrite P, units_fst in Lm. exact Lm.
      + destruct (C41_quantile lg H L C) as (s0 & mn & mx & f & E0 & R); [rewrite P; apply NE, Hl|rewrite P; apply units_ones|]. rewrite E in E0. injection E0 as <-. exists mn, mx, f. exact R.
  Qed.
  Lemma cell_push : forall n c l v, cell_ok n c l -> moderate v -> exists c', hist_push lg c v 1 = Ok c' /\ cell_ok n c' (l ++ [v]).
  Proof.
    intros n c l v (H & C & E & P & B) M. assert (C' : careful (HistModel.Push H v 1)) by (cbn [careful]; split; [exact C|]; split; [reflexivity|exact M]).
    destruct (run_inv lg (HistModel.Push H v 1) L C') as (s & Es & _). pose proof Es as Es'. cbn [HistModel.run] in Es'. rewrite E in Es'. cbn [obind] in Es'. exists s. split; [exact Es'|].
    exists (HistModel.Push H v 1). split; [exact C'|]. split; [exact Es|]. split; [cbn [pushed]; rewrite P, units_app; reflexivity|exact B].
  Qed.
  Lemma cell_empty : forall n c l, cell_ok n c l -> (zlen (h_bins c) =? 0) = true <-> l = [].
  Proof.
    intros n c l (H & C & E & P & B). destruct (run_inv lg H L C) as (s & Es & I). rewrite E in Es. injection Es as <-. pose proof (i_empty _ _ I) as X. rewrite P in X.
    rewrite Z.eqb_eq. split.
    - intro Z0. assert (h_bins c = []) by (destruct (h_bins c); [reflexivity|unfold zlen in Z0; cbn in Z0; lia]). apply X in H0. destruct l; [reflexivity|discriminate].
    - intros ->. rewrite (proj2 X eq_refl). reflexivity.
  Qed.
  Lemma cell_merge : forall n c l d m, cell_ok n c l -> cell_ok n d m -> exists e, merge_cell2 lg c d = Ok e /\ cell_ok n e (l ++ m).
  Proof.
    intros n c l d m Hc Hd. pose proof (cell_empty n c l Hc) as Ec. pose proof (cell_empty n d m Hd) as Ed. unfold merge_cell2.
    destruct (zlen (h_bins c) =? 0) eqn:Zc, (zlen (h_bins d) =? 0) eqn:Zd; cbn [andb negb].
    - exists c. split; [reflexivity|]. rewrite (proj1 Ed eq_refl), app_nil_r. exact Hc.
    - exists d. split; [reflexivity|]. rewrite (proj1 Ec eq_refl). exact Hd.
    - exists c. split; [reflexivity|]. rewrite (proj1 Ed eq_refl), app_nil_r. exact Hc.
    - destruct Hc as (H & C & E & P & B), Hd as (K & CK & EK & PK & BK). assert (CM : careful (HistModel.Merge H K)) by (cbn [careful]; auto).
      destruct (run_inv lg (HistModel.Merge H K) L CM) as (s & Es & _). pose proof Es as Es'. cbn [HistModel.run] in Es'. rewrite E in Es'. cbn [obind] in Es'. rewrite EK in Es'. cbn [obind] in Es'. exists s. split; [exact Es'|].
      exists (HistModel.Merge H K). split; [exact CM|]. split; [exact Es|]. split; [cbn [pushed]; rewrite P, PK, units_app; reflexivity|exact B].
  Qed.
  Lemma cell_new : forall n, 1 <= n -> exists c, hist_resize lg hist_new n = Ok c /\ c = Hist false n 0 dbl_max dbl_min [] /\ cell_ok n c [].
  Proof.
    intros n Hn. assert (E : hist_resize lg hist_new n = Ok (Hist false n 0 dbl_max dbl_min [])).
    { unfold hist_resize, trim. cbn [h_bins hist_new h_weighted h_bin_count h_count h_min h_max length trim_loop]. replace (n <? zlen (A := bin) []) with false by (unfold zlen; cbn; lia). reflexivity. }
    eexists. split; [exact E|]. split; [reflexivity|]. exists (New n). split; [exact Hn|]. split; [exact E|]. split; reflexivity.
  Qed.
  Lemma cell_clear : forall n c l, cell_ok n c l -> cell_ok n (hist_clear c) [].
  Proof.
    intros n c l (H & C & E & P & B). destruct (run_inv lg H L C) as (s & Es & I). rewrite E in Es. injection Es as <-. unfold hist_clear. rewrite (i_weighted _ _ I), (i_budget _ _ I), B.
    pose proof (careful_budget H C) as N. rewrite B in N. destruct (cell_new n N) as (c' & _ & -> & K). exact K.
  Qed.

  (** ** The matrix *)
  Lemma merge_loop_ok : forall n l (lhs rhs : cells hist), NoDup l -> (forall i j, In (i, j) l -> exists a b, cell_ok n (lhs i j) a /\ cell_ok n (rhs i j) b) ->
    exists m, merge_loop lg lhs rhs l = Ok m /\ (forall i j, In (i, j) l -> merge_cell2 lg (lhs i j) (rhs i j) = Ok (m i j)) /\ (forall i j, ~ In (i, j) l -> m i j = lhs i j).
  Proof.
    intro n. induction l as [|[i j] l IH]; intros lhs rhs ND H; cbn [merge_loop].
    - exists lhs. split; [reflexivity|]. split; [intros i j []|reflexivity].
    - inversion ND as [|? ? NI ND']; subst. destruct (H i j (or_introl eq_refl)) as (a & b & A & B). destruct (cell_merge _ _ _ _ _ A B) as (e & E & _). rewrite E. cbn [obind].
      assert (NEQ : forall i' j', In (i', j') l -> upd lhs i j e i' j' = lhs i' j').
      { intros i' j' I. unfold upd. destruct (Z.eqb_spec i' i); [|reflexivity]. destruct (Z.eqb_spec j' j); [|reflexivity]. subst. contradiction. }
      destruct (IH (upd lhs i j e) rhs ND') as (m & Em & M1 & M2).
      { intros i' j' I. rewrite NEQ by exact I. apply H. right. exact I. }
      exists m. split; [exact Em|]. split.
      + intros i' j' [X|I]; [injection X as <- <-|rewrite <- (M1 _ _ I), NEQ by exact I; reflexivity]. rewrite M2 by exact NI. unfold upd. rewrite !Z.eqb_refl. exact E.
      + intros i' j' NI'. rewrite M2 by (intro X; apply NI'; right; exact X). unfold upd. destruct (Z.eqb_spec i' i); [|reflexivity]. destruct (Z.eqb_spec j' j); [|reflexivity]. subst. exfalso. apply NI'. left. reflexivity.
  Qed.
  Lemma in_all_cells : forall r c i j, In (i, j) (all_cells r c) <-> 0 <= i < r /\ 0 <= j < c.
  Proof.
    intros r c i j. unfold all_cells. rewrite in_prod_iff, !in_map_iff. split.
    - intros [(a & <- & A) (b & <- & B)]. apply in_seq in A, B. lia.
    - intros [I J]. split; [exists (Z.to_nat i)|exists (Z.to_nat j)]; (split; [lia|apply in_seq; lia]).
  Qed.
  Lemma NoDup_app2 : forall (A : Type) (l m : list A), NoDup l -> NoDup m -> (forall x, In x l -> ~ In x m) -> NoDup (l ++ m).
  Proof.
    intros A l m HL HM D. induction HL as [|a l NI HL IH]; [exact HM|]. cbn [app]. constructor.
    - intro I. apply in_app_or in I as [I|I]; [contradiction|apply (D a); [left; reflexivity|exact I]].
    - apply IH. intros x I. apply D. right. exact I.
  Qed.
  Lemma nodup_prod : forall (A B : Type) (l : list A) (m : list B), NoDup l -> NoDup m -> NoDup (list_prod l m).
  Proof.
    intros A B l m HL HM. induction HL as [|a l NI HL IH]; cbn [list_prod]; [constructor|]. apply NoDup_app2; [|exact IH|].
    - clear -HM. induction HM as [|b m NI HM IH]; cbn [map]; constructor; [|exact IH]. intro I. apply in_map_iff in I as (b' & E & I). injection E as ->. contradiction.
    - intros [x y] I J. apply in_map_iff in I as (y' & E & _). injection E as <- <-. apply in_prod_iff in J as [J _]. contradiction.
  Qed.
  Lemma nodup_cells : forall r c, NoDup (all_cells r c).
  Proof.
    intros r c. unfold all_cells. apply nodup_prod; (apply FinFun.Injective_map_NoDup; [intros a b E; lia|apply seq_NoDup]).
  Qed.

  (** ** The grid *)
  Definition of_cell (g : hist2) (i j : Z) (s : Q * Q * option Q) : Prop := in_bin (g_x g) (fst (fst s)) i /\ in_bin (g_y g) (snd (fst s)) j.
  Definition holds2 (n : Z) (g : hist2) (l : list (Q * Q * option Q)) : Prop :=
    forall i j, 0 <= i < g_rows g -> 0 <= j < g_cols g -> exists sel, selects (of_cell g i j) l sel /\ cell_ok n (g_cells g i j) (values sel).
  Definition moderate_list (l : list (Q * Q * option Q)) : Prop := forall s v, In s l -> snd s = Some v -> moderate v.
  Lemma values_app : forall l m, values (l ++ m) = values l ++ values m.
  Proof. intros. apply flat_map_app. Qed.
  Lemma push2_1_ok : forall n g l s, axis_ok (g_x g) -> axis_ok (g_y g) -> holds2 n g l -> (forall v, snd s = Some v -> moderate v) ->
    exists g', push2_1 lg g s = Ok g' /\ g_x g' = g_x g /\ g_y g' = g_y g /\ holds2 n g' (l ++ [s]).
  Proof.
    intros n g l [[x y] z] OX OY H M. destruct (find_bounded _ x OX) as (ix & EX & RX & BX). destruct (find_bounded _ y OY) as (iy & EY & RY & BY).
    assert (U : forall i j, 0 <= i < g_rows g -> 0 <= j < g_cols g -> of_cell g i j (x, y, z) <-> i = ix /\ j = iy).
    { intros i j _ _. unfold of_cell. cbn [fst snd]. split; [intros [A B]; split; [eapply in_bin_unique; [apply OX|exact A|exact BX]|eapply in_bin_unique; [apply OY|exact B|exact BY]]|intros [-> ->]; auto]. }
    unfold push2_1. destruct z as [v|].
    - rewrite EX. cbn [obind]. rewrite EY. cbn [obind]. destruct (Z.eqb_spec ix (-1)); [lia|]. destruct (Z.eqb_spec iy (-1)); [lia|]. cbn [negb andb].
      replace (in_matrix (g_rows g) (g_cols g) ix iy) with true by (symmetry; apply in_matrix_iff; unfold g_rows, g_cols, len in *; lia).
      destruct (H ix iy) as (sel & S & K); [unfold g_rows, len in *; lia|unfold g_cols, len in *; lia|]. destruct (cell_push _ _ _ v K (M v eq_refl)) as (c & E & C). rewrite E. cbn [obind].
      eexists. split; [reflexivity|]. split; [reflexivity|]. split; [reflexivity|]. intros i j I J. change (0 <= i < g_rows g) in I. change (0 <= j < g_cols g) in J. cbn [with_cells g_cells]. unfold upd.
      destruct (Z.eqb_spec i ix) as [->|NI], (Z.eqb_spec j iy) as [->|NJ]; cbn [andb].
      + exists (sel ++ [(x, y, Some v)]). split; [apply selects_app; [exact S|constructor 2; [apply U; auto|constructor]]|]. rewrite values_app. exact C.
      + destruct (H ix j I J) as (s' & S' & K'). exists s'. split; [|exact K']. rewrite <- (app_nil_r s'). apply selects_app; [exact S'|]. constructor 3; [|constructor]. intro X. apply U in X; auto. lia.
      + destruct (H i iy I J) as (s' & S' & K'). exists s'. split; [|exact K']. rewrite <- (app_nil_r s'). apply selects_app; [exact S'|]. constructor 3; [|constructor]. intro X. apply U in X; auto. lia.
      + destruct (H i j I J) as (s' & S' & K'). exists s'. split; [|exact K']. rewrite <- (app_nil_r s'). apply selects_app; [exact S'|]. constructor 3; [|constructor]. intro X. apply U in X; auto. lia.
    - exists g. split; [reflexivity|]. split; [reflexivity|]. split; [reflexivity|]. intros i j I J. destruct (H i j I J) as (sel & S & K).
      assert (D : of_cell g i j (x, y, None) \/ ~ of_cell g i j (x, y, None)). { destruct (Z.eq_dec i ix) as [->|A]; [destruct (Z.eq_dec j iy) as [->|B]|]; [left; apply U; auto|right; intro X; apply U in X; auto; lia|right; intro X; apply U in X; auto; lia]. }
      destruct D as [D|D].
      + exists (sel ++ [(x, y, None)]). split; [apply selects_app; [exact S|constructor 2; [exact D|constructor]]|]. rewrite values_app. cbn [values flat_map snd app]. rewrite app_nil_r. exact K.
      + exists sel. split; [|exact K]. rewrite <- (app_nil_r sel). apply selects_app; [exact S|]. constructor 3; [exact D|constructor].
  Qed.
  Lemma push2_loop_ok : forall n t g l, axis_ok (g_x g) -> axis_ok (g_y g) -> holds2 n g l -> moderate_list t ->
    exists g', push2_loop lg g t = Ok g' /\ g_x g' = g_x g /\ g_y g' = g_y g /\ holds2 n g' (l ++ t).
  Proof.
    induction t as [|s t IH]; intros g l OX OY H M; cbn [push2_loop].
    - exists g. rewrite app_nil_r. auto.
    - destruct (push2_1_ok n g l s OX OY H (fun v E => M s v (or_introl eq_refl) E)) as (g1 & E1 & X1 & Y1 & H1). rewrite E1. cbn [obind].
      destruct (IH g1 (l ++ [s])) as (g2 & E2 & X2 & Y2 & H2); [rewrite X1; exact OX|rewrite Y1; exact OY|exact H1|intros u v I; apply M; right; exact I|].
      exists g2. split; [exact E2|]. split; [congruence|]. split; [congruence|]. rewrite <- app_assoc in H2. exact H2.
  Qed.
  Lemma holds2_same : forall n g g' l, axis_eqb (g_x g') (g_x g) = true -> axis_eqb (g_y g') (g_y g) = true -> is_angle (g_x g') = is_angle (g_x g) -> is_angle (g_y g') = is_angle (g_y g) ->
    g_cells g' = g_cells g -> holds2 n g l -> holds2 n g' l.
  Proof.
    intros n g g' l EX EY AX AY EC H i j I J. pose proof (proj1 (axis_eqb_values _ _ EX)) as LX. pose proof (proj1 (axis_eqb_values _ _ EY)) as LY. unfold len, g_rows, g_cols in *.
    destruct (H i j) as (sel & S & X); [unfold g_rows; lia|unfold g_cols; lia|]. exists sel. rewrite EC. split; [|exact X]. eapply selects_iff; [|exact S].
    intros [[u v] z]. unfold of_cell. cbn [fst snd]. rewrite (axis_eqb_bins _ _ EX AX u i), (axis_eqb_bins _ _ EY AY v j). reflexivity.
  Qed.
  Lemma holds2_merge : forall n g g' l l', axis_eqb (g_x g) (g_x g') = true -> axis_eqb (g_y g) (g_y g') = true -> is_angle (g_x g) = is_angle (g_x g') -> is_angle (g_y g) = is_angle (g_y g') ->
    holds2 n g l -> holds2 n g' l' -> exists g2, add2 lg g g' = Ok g2 /\ g_x g2 = g_x g /\ g_y g2 = g_y g /\ holds2 n g2 (l ++ l').
  Proof.
    intros n g g' l l' EX EY AX AY H H'. unfold add2. rewrite EX, EY. cbn [negb orb]. pose proof (proj1 (axis_eqb_values _ _ EX)) as LX. pose proof (proj1 (axis_eqb_values _ _ EY)) as LY.
    assert (RC : g_rows g' = g_rows g /\ g_cols g' = g_cols g) by (unfold g_rows, g_cols, len in *; lia). destruct RC as [RR RC].
    destruct (merge_loop_ok n (all_cells (g_rows g) (g_cols g)) (g_cells g) (g_cells g') (nodup_cells _ _)) as (m & E & M & _).
    { intros i j I. apply in_all_cells in I as [I J]. destruct (H i j I J) as (s & _ & K). destruct (H' i j) as (s' & _ & K'); [lia|lia|]. eauto. }
    rewrite E. cbn [obind]. eexists. split; [reflexivity|]. split; [reflexivity|]. split; [reflexivity|].
    intros i j I J. change (0 <= i < g_rows g) in I. change (0 <= j < g_cols g) in J. destruct (H i j I J) as (s & S & K). destruct (H' i j) as (s' & S' & K'); [lia|lia|].
    exists (s ++ s'). split.
    - apply selects_app; [exact S|]. eapply selects_iff; [|exact S']. intros [[u v] z]. unfold of_cell. cbn [fst snd with_cells g_x g_y]. rewrite (axis_eqb_bins _ _ EX AX u i), (axis_eqb_bins _ _ EY AY v j). reflexivity.
    - rewrite values_app. cbn [with_cells g_cells]. destruct (cell_merge _ _ _ _ _ K K') as (e & Ee & Ke). rewrite (M i j) in Ee by (apply in_all_cells; auto). injection Ee as <-. exact Ke.
  Qed.
  Lemma holds2_clear : forall n g l, holds2 n g l -> holds2 n (clear2 g) [].
  Proof.
    intros n g l H i j I J. change (0 <= i < g_rows g) in I. change (0 <= j < g_cols g) in J. destruct (H i j I J) as (s & _ & K). exists []. split; [constructor|]. cbn [clear2 with_cells g_cells].
    replace (in_matrix (g_rows g) (g_cols g) i j) with true by (symmetry; apply in_matrix_iff; auto). eapply cell_clear. exact K.
  Qed.

  Section History.
    Variables (x y : axis) (bin_count : option Z).
    Definition limit : Z := match bin_count with Some n => n | None => 100 end.
    Definition on_grid2 (g : hist2) : Prop :=
      axis_ok (g_x g) /\ axis_eqb (g_x g) x = true /\ is_angle (g_x g) = is_angle x /\ is_regular (g_x g) = is_regular x /\
      axis_ok (g_y g) /\ axis_eqb (g_y g) y = true /\ is_angle (g_y g) = is_angle y /\ is_regular (g_y g) = is_regular y.
    Lemma history2_ok : forall h, axis_ok x -> axis_ok y -> 1 <= limit -> same_sizes h -> moderate_values h -> (restores h = true -> picklable x /\ picklable y) ->
      exists g, run2 lg x y bin_count h = Ok g /\ on_grid2 g /\ holds2 limit g (samples_of h).
    Proof.
      intros h OX OY NL. induction h as [|h IH xs ys zs|h IH h' IH'|h IH|h IH]; intros SS MV PK; cbn [run2 samples_of same_sizes moderate_values restores] in *.
      - assert (HN : forall c, cell_ok limit c [] -> holds2 limit (Hist2 x y (fun _ _ => c)) []). { intros c K i j _ _. exists []. split; [constructor|exact K]. }
        unfold new_hist2, limit in *. destruct bin_count as [n|].
        + destruct (cell_new n NL) as (c & E & _ & K). rewrite E. cbn [obind]. eexists. split; [reflexivity|]. split; [|apply HN; exact K]. unfold on_grid2. cbn [g_x g_y]. auto 12 using axis_eqb_refl.
        + eexists. split; [reflexivity|]. split; [unfold on_grid2; cbn [g_x g_y]; auto 12 using axis_eqb_refl|]. apply HN. destruct (cell_new 100 ltac:(discriminate)) as (c & _ & -> & K). exact K.
      - destruct SS as (SS & L1 & L2), MV as (MV & MZ). destruct (IH SS MV PK) as (g & E & G & H). rewrite E. cbn [obind]. pose proof G as (GX & _ & _ & _ & GY & _).
        unfold push2, zlen. rewrite <- L1, <- L2, Z.eqb_refl. cbn [negb orb].
        destruct (push2_loop_ok limit (combine (combine xs ys) zs) g _ GX GY H) as (g' & E' & X' & Y' & H').
        { intros [[u v] z] w I Z. cbn [snd] in Z. subst z. apply in_combine_r in I. apply MZ. exact I. }
        exists g'. split; [exact E'|]. split; [|exact H']. unfold on_grid2 in *. rewrite X', Y'. exact G.
      - destruct SS as [S1 S2], MV as [M1 M2]. destruct (IH S1 M1) as (b & E & G & H); [intro R; apply PK; rewrite R; reflexivity|]. destruct (IH' S2 M2) as (c & F & K & H'); [intro R; apply PK; rewrite R; apply orb_true_r|].
        rewrite E. cbn [obind]. rewrite F. cbn [obind]. destruct G as (G1 & G2 & G3 & G4 & G5 & G6 & G7 & G8), K as (K1 & K2 & K3 & K4 & K5 & K6 & K7 & K8).
        assert (EX : axis_eqb (g_x b) (g_x c) = true) by (eapply axis_eqb_trans; [exact G2|apply axis_eqb_sym; exact K2]).
        assert (EY : axis_eqb (g_y b) (g_y c) = true) by (eapply axis_eqb_trans; [exact G6|apply axis_eqb_sym; exact K6]).
        destruct (holds2_merge limit b c _ _ EX EY ltac:(congruence) ltac:(congruence) H H') as (g2 & A & SX & SY & HM). exists g2. split; [exact A|]. split; [|exact HM].
        unfold on_grid2. rewrite SX, SY. auto 12.
      - destruct (IH SS MV PK) as (b & E & G & H). rewrite E. cbn [obind]. eexists. split; [reflexivity|]. split; [exact G|]. eapply holds2_clear. exact H.
      - destruct (PK eq_refl) as (PX & PY). destruct (IH SS MV (fun _ => PK eq_refl)) as (b & E & G & H). rewrite E. cbn [obind].
        destruct G as (G1 & G2 & G3 & G4 & G5 & G6 & G7 & G8).
        destruct (restore_axis x (g_x b) G1 G2 G3 G4 PX) as (cx & SX & OKX & EX & LX & AX & RX). destruct (restore_axis y (g_y b) G5 G6 G7 G8 PY) as (cy & SY & OKY & EY & LY & AY & RY).
        unfold setstate2, getstate2. cbn [gs_x gs_y gs_rows gs_cols gs_cells]. rewrite SX. cbn [obind]. rewrite SY. cbn [obind]. unfold new_hist2. destruct (cell_new 40 ltac:(discriminate)) as (c & EC & _). rewrite EC. cbn [obind]. unfold g_rows, g_cols. cbn [g_x g_y]. unfold len in LX, LY. rewrite LX, LY, !Z.eqb_refl. cbn [negb orb].
        eexists. split; [reflexivity|]. split.
        + unfold on_grid2. cbn [with_cells g_x g_y]. rewrite AX, AY, RX, RY. repeat (split; [first [assumption|eapply axis_eqb_trans; eassumption|congruence]|]). congruence.
        + eapply holds2_same; [| | | | |exact H]; cbn [with_cells g_x g_y g_cells]; auto.
    Qed.
  End History.
End Cells.
