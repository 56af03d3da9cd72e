(** Theorems about the coordinates given by name (C106) and about the third and fourth dimensions of
    a labelled array (C107). *)
From Coq Require Import Permutation.
From Verif Require Import Base BaseProofs MathModel AxisModel AxisSpec AxisProofs IntAxisModel IntAxisProofs GridModel GridSpec GridProofs
  XarrayModel XarraySpec XarrayProofs XarrayProps XarrayProofs2 XarrayProps3 XarrayProps4 XarrayProps5.
Open Scope Z_scope.

(** ** C106 *)
Lemma lookup_in {A} : forall n (d : list (string * A)) v, NoDup (map fst d) -> (lookup n d = Some v <-> In (n, v) d).
Proof.
  intros n d v. unfold lookup. induction d as [|[m w] d IH]; intro ND; cbn [find map fst snd In] in *; [split; [discriminate|tauto]|].
  inversion ND as [|? ? N ND']; subst. destruct (String.eqb_spec n m) as [->|Ne]; cbn [snd].
  - split; [intro H; injection H as ->; tauto|]. intros [H|H]; [injection H as ->; reflexivity|]. exfalso. apply N. apply (in_map fst) in H. exact H.
  - rewrite (IH ND'). split; [tauto|]. intros [H|H]; [congruence|exact H].
Qed.
Lemma lookup_none {A} : forall n (d : list (string * A)), lookup n d = None -> ~ In n (map fst d).
Proof.
  intros n d H X. apply in_map_iff in X as ([m v] & <- & X). unfold lookup in H. destruct (find _ d) eqn:F; [discriminate|]. pose proof (find_none _ _ F _ X) as Y. cbn [fst] in Y. rewrite String.eqb_refl in Y. discriminate.
Qed.
Lemma lookup_perm {A} : forall n (d d' : list (string * A)), Permutation d d' -> NoDup (map fst d) -> lookup n d = lookup n d'.
Proof.
  intros n d d' P ND. assert (ND' : NoDup (map fst d')) by (apply (Permutation_NoDup (Permutation_map fst P)); exact ND).
  destruct (lookup n d) as [v|] eqn:E.
  - apply (lookup_in n d v ND) in E. apply (Permutation_in _ P) in E. symmetry. apply lookup_in; assumption.
  - apply lookup_none in E. destruct (lookup n d') as [v|] eqn:E'; [|reflexivity]. apply (lookup_in n d' v ND') in E'. apply (Permutation_in _ (Permutation_sym P)) in E'. exfalso. apply E. apply (in_map fst) in E'. exact E'.
Qed.
(** The order of the entries of the dictionary does not matter. *)
Theorem C106_order : forall cast d d' dims time, Permutation d d' -> NoDup (map fst d) -> coords cast d' dims time = coords cast d dims time.
Proof.
  intros cast d d' dims time P ND. unfold coords. rewrite <- (Permutation_length P). destruct (negb _); [reflexivity|].
  assert (E : existsb (fun p : string * Q => negb (mem (fst p) dims)) d' = existsb (fun p => negb (mem (fst p) dims)) d).
  { destruct (existsb _ d') eqn:A, (existsb _ d) eqn:B; try reflexivity.
    - apply existsb_exists in A as (p & Hp & A). apply (Permutation_in _ (Permutation_sym P)) in Hp. assert (X : existsb (fun p => negb (mem (fst p) dims)) d = true) by (apply existsb_exists; eauto). congruence.
    - apply existsb_exists in B as (p & Hp & B). apply (Permutation_in _ P) in Hp. assert (X : existsb (fun p => negb (mem (fst p) dims)) d' = true) by (apply existsb_exists; eauto). congruence. }
  rewrite E. destruct (existsb _ d); [reflexivity|]. induction dims as [|n dims IH]; cbn [collect]; [reflexivity|]. rewrite (lookup_perm n d d' P ND).
  destruct (lookup n d'); cbn [obind]; [|reflexivity]. match goal with |- obind ?e _ = _ => destruct e; cbn [obind]; [|reflexivity|reflexivity] end.
  clear IH E. revert dims. induction dims as [|m dims IH]; cbn [collect]; [reflexivity|]. rewrite (lookup_perm m d d' P ND). destruct (lookup m d'); cbn [obind]; [|reflexivity].
  match goal with |- obind (obind ?e _) _ = _ => destruct e; cbn [obind]; [|reflexivity|reflexivity] end. 
  destruct (collect _ dims) as [l| |], (collect _ dims) as [l'| |]; cbn [obind] in *; congruence.
Qed.
Print Assumptions C106_order.
(** Each value goes to the axis of its name; the dates are converted to the unit of their axis. *)
Theorem C106_route : forall cast d dims time args, NoDup (map fst d) -> coords cast d dims time = Ok args ->
  Permutation (map fst d) dims /\
  Forall2 (fun n arg => exists v, In (n, v) d /\ (if match time with Some t => String.eqb n t | None => false end then cast v = Ok arg else arg = v)) dims args.
Proof.
  intros cast d dims time args ND H. unfold coords in H. destruct (Nat.eqb_spec (length d) (length dims)) as [L|]; cbn [negb] in H; [|discriminate].
  destruct (existsb _ d) eqn:E; [discriminate|]. split.
  - apply NoDup_Permutation_bis; [exact ND|rewrite map_length; lia|]. intros n Hn. apply in_map_iff in Hn as (p & <- & Hp). destruct (mem (fst p) dims) eqn:M; [apply mem_in; exact M|].
    exfalso. assert (X : existsb (fun p : string * Q => negb (mem (fst p) dims)) d = true) by (apply existsb_exists; exists p; rewrite M; auto). congruence.
  - clear L E. revert args H. induction dims as [|n dims IH]; cbn [collect]; intros args H; [injection H as <-; constructor|].
    match type of H with (obind ?e _) = _ => destruct e as [b| |] eqn:B; cbn [obind] in H; [|discriminate|discriminate] end.
    match type of H with (obind ?e _) = _ => destruct e as [r| |] eqn:R; cbn [obind] in H; [|discriminate|discriminate] end.
    assert (args = b :: r) by congruence. subst args. constructor; [|apply IH; reflexivity].
    destruct (lookup n d) as [v|] eqn:Lk; [|discriminate]. exists v. split; [apply (lookup_in n d v ND); exact Lk|]. destruct time as [t|]; [destruct (String.eqb n t)|]; congruence.
Qed.
(** Names that are not those of the axes are refused, the names of the axes are accepted. *)
Theorem C106_names : forall cast d dims time, NoDup (map fst d) -> NoDup dims -> (forall v, exists w, cast v = Ok w) ->
  (Permutation (map fst d) dims -> exists args, coords cast d dims time = Ok args) /\
  (~ Permutation (map fst d) dims -> exists w, coords cast d dims time = Throw w).
Proof.
  intros cast d dims time ND NDd C. split; intro P.
  - unfold coords. assert (L : length d = length dims) by (rewrite <- (Permutation_length P), map_length; reflexivity). rewrite L, Nat.eqb_refl. cbn [negb].
    destruct (existsb _ d) eqn:E.
    { exfalso. apply existsb_exists in E as (p & Hp & E). assert (X : In (fst p) dims) by (apply (Permutation_in _ P), in_map; exact Hp). apply mem_in in X. rewrite X in E. discriminate. }
    assert (I : incl dims (map fst d)) by (intros n Hn; apply (Permutation_in _ (Permutation_sym P)); exact Hn). clear P L E NDd. induction dims as [|n dims IH]; cbn [collect]; [eauto|].
    destruct (lookup n d) as [v|] eqn:Lk; [|exfalso; apply lookup_none in Lk; apply Lk, I; left; reflexivity].
    destruct (IH ltac:(intros m Hm; apply I; right; exact Hm)) as [r ->].
    destruct time as [t|]; [destruct (String.eqb n t); [destruct (C v) as [w ->]|]|]; cbn [obind]; eauto.
  - unfold coords. destruct (Nat.eqb_spec (length d) (length dims)) as [L|]; cbn [negb]; [|eauto]. destruct (existsb _ d) eqn:E; [eauto|]. exfalso. apply P.
    apply NoDup_Permutation_bis; [exact ND|rewrite map_length; lia|]. intros n Hn. apply in_map_iff in Hn as (p & <- & Hp). destruct (mem (fst p) dims) eqn:M; [apply mem_in; exact M|].
    exfalso. assert (X : existsb (fun p : string * Q => negb (mem (fst p) dims)) d = true) by (apply existsb_exists; exists p; rewrite M; auto). congruence.
Qed.
Print Assumptions C106_names.
Theorem C106_ex : NoDup (map fst [("time", 8%Q); ("lat", 1%Q); ("lon", 0%Q)]%string) /\
  coords no_cast [("time", 8%Q); ("lat", 1%Q); ("lon", 0%Q)]%string ["lon"; "lat"; "time"]%string (Some "time"%string) = Ok [0; 1; 8]%Q.
Proof. split; [cbn; repeat constructor; cbn; intuition discriminate|reflexivity]. Qed.

(** ** C107 *)
(** The order in which Python enumerates the set of the two last dimensions changes from one run to
    the next.  With a temporal dimension it has no effect. *)
Lemma two_others : forall da order order' nx ny n1 n2 a, da_ok da -> (forall l, Permutation (order l) l) -> (forall l, Permutation (order' l) l) ->
  order (others da nx ny) = [n1; n2] -> transpose da [nx; ny; n1; n2] = Ok a \/ transpose da [nx; ny; n2; n1] = Ok a -> order' (others da nx ny) = [n1; n2] \/ order' (others da nx ny) = [n2; n1].
Proof.
  intros da order order' nx ny n1 n2 a OK Or Or' E _. assert (P : Permutation (order' (others da nx ny)) [n1; n2]) by (rewrite <- E; rewrite (Or' _), (Or _); reflexivity).
  pose proof (Permutation_length P) as L. destruct (order' (others da nx ny)) as [|a1 [|a2 [|]]]; cbn in L; try discriminate. apply Permutation_length_2 in P as [[-> ->]|[-> ->]]; auto.
Qed.
Ltac redo := repeat (first [ match goal with H : is_time ?e = _ |- context [is_time ?e] => rewrite H end
  | match goal with H : ?e = Ok _ |- context [?e] => rewrite H end ]; cbn [obind]; cbv beta iota zeta); reflexivity.
Theorem C107_time : forall order order' da inc geodetic x n, da_ok da -> (forall l, Permutation (order l) l) -> (forall l, Permutation (order' l) l) ->
  xgrid4 order da inc geodetic = Ok x -> xg_time x = Some n -> xgrid4 order' da inc geodetic = Ok x.
Proof.
  intros order order' da inc geodetic x n OK Or Or' H Ht. unfold xgrid4 in *. step H. cbn [obind]. destruct a as [|nx [|ny [|]]]; try discriminate.
  destruct (order (others da nx ny)) as [|n1 [|n2 [|]]] eqn:EO; try discriminate. step H. step H. step H. step H.
  assert (F : forall dim inc axes a names time y, finish dim inc axes a names time = Ok y -> xg_time y = time).
  { clear. intros dim inc axes a names time y F. unfold finish in F. destruct (py_grid _ _ _ _ _) as [h [g| |]]; cbn [obind] in F; try discriminate. injection F as <-. reflexivity. }
  destruct (is_time a1) eqn:T2.
  - destruct a0 as [|]; [discriminate|]. destruct (make_temporal a1) as [t| |] eqn:M; cbn [obind] in E3; try discriminate. injection E3 as <-.
    assert (T1 : is_time a = false).
    { destruct (is_time a); [|reflexivity]. destruct (make_temporal a); cbn [obind] in E1; discriminate. }
    cbv beta iota zeta in H. step H. step H. step H. step H. cbn [obind] in H. step H. step H.
    destruct (two_others da order order' nx ny n1 n2 a6 OK Or Or' EO (or_intror E8)) as [-> | ->].
    + redo.
    + redo.
  - injection E3 as <-. cbv beta iota zeta in H. step H. step H. step H. step H. step H. step H. step H.
    pose proof (F _ _ _ _ _ _ _ H) as Ft. rewrite Ht in Ft.
    destruct (is_time a) eqn:T1.
    + destruct (make_temporal a) as [t| |] eqn:M; cbn [obind] in E1; try discriminate. injection E1 as <-. injection E7 as <-.
      destruct (two_others da order order' nx ny n1 n2 _ OK Or Or' EO (or_introl E9)) as [-> | ->].
      * redo.
      * redo.
    + injection E1 as <-. discriminate.
Qed.
Print Assumptions C107_time.
(** Otherwise, when the two methods differ, the interpolated value depends on it. *)
Local Open Scope string_scope.
Definition levels : data_array :=
  DataArray ["lon"; "lat"; "depth"; "energy"]
    [lonc; latc; Coord "depth" None ["depth"] (CReal [0; 1]%Q); Coord "energy" None ["energy"] (CReal [0; 1]%Q)]
    (NdArray [2; 2; 2; 2] (fun i => match i with [_; _; k; l] => Some (inject_Z (k + 10 * l)) | _ => None end)).
Theorem C107_methods_refuted : exists order order' x x' v v', (forall l, Permutation (order l) l) /\ (forall l, Permutation (order' l) l) /\ da_ok levels /\
  xgrid4 order levels true true = Ok x /\ xgrid4 order' levels true true = Ok x' /\
  let q := [("lon", 0%Q); ("lat", 0%Q); ("depth", 1 # 4); ("energy", 1 # 4)] in
  call gap2 gap2 no_cast x q Bilinear "linear" "nearest" true = Ok (Some v) /\ call gap2 gap2 no_cast x' q Bilinear "linear" "nearest" true = Ok (Some v') /\ ~ (v == v')%Q.
Proof.
  exists (fun l => l), (@rev string). do 4 eexists. split; [exact id_perm|]. split; [intro l; symmetry; apply Permutation_rev|].
  split; [split; [|split; [reflexivity|]]; cbn; repeat constructor; cbn; intuition discriminate|].
  split; [vm_compute; reflexivity|]. split; [vm_compute; reflexivity|]. cbv zeta. split; [vm_compute; reflexivity|]. split; [vm_compute; reflexivity|]. discriminate.
Qed.
