(** Executions of a tree of additions: lemmas. *)
From Verif Require Import Base BaseProofs BinningModel DaskModel DaskSpec.

Section Execution.
  Context {I : Type}.
  Variables (iadd : I -> I -> outcome I) (add : list I -> nat -> nat -> outcome (list I * nat)).
  (** What an addition does to the heap. *)
  Definition sound_add : Prop :=
    (forall h i j a b c, nth_error h i = Some a -> nth_error h j = Some b -> iadd a b = Ok c -> exists h' k, add h i j = Ok (h', k)) /\
    (forall h i j h' k, add h i j = Ok (h', k) -> exists a b c, nth_error h i = Some a /\ nth_error h j = Some b /\ iadd a b = Ok c /\ nth_error h' k = Some c /\
       (k = i \/ (length h <= k)%nat) /\ (length h <= length h')%nat /\ forall m, m <> i -> (m < length h)%nat -> nth_error h' m = nth_error h m).
  Hypothesis S_add : sound_add.
  (** The value of a tree. *)
  Fixpoint value (h : list I) (w : work) : outcome I :=
    match w with
    | Ref i => match nth_error h i with Some a => Ok a | None => UB "dangling reference" end
    | Sum p q => olet a := value h p in olet b := value h q in iadd a b
    end.
  Definition good (h : list I) (w : work) : Prop := NoDup (fringe w) /\ forall i, In i (fringe w) -> (i < length h)%nat.
  Lemma value_ext : forall h h' w, (forall i, In i (fringe w) -> nth_error h' i = nth_error h i) -> value h' w = value h w.
  Proof.
    intros h h' w. induction w as [i|p IHp q IHq]; intro H; cbn [value fringe] in *; [rewrite H by (left; reflexivity); reflexivity|].
    rewrite IHp, IHq; [reflexivity| |]; intros i Hi; apply H, in_or_app; auto.
  Qed.
  Lemma good_sum : forall h p q, good h (Sum p q) -> good h p /\ good h q /\ forall i, In i (fringe p) -> ~ In i (fringe q).
  Proof.
    intros h p q [N R]. cbn [fringe] in *. assert (D : NoDup (fringe p) /\ NoDup (fringe q) /\ forall i, In i (fringe p) -> ~ In i (fringe q)).
    { clear R. induction (fringe p) as [|x l IH]; cbn [app] in N; [split; [constructor|]; split; [exact N|intros i []]|].
      inversion N as [|? ? N1 N2]; subst. destruct (IH N2) as (A & B & C). split; [constructor; [intro F; apply N1, in_or_app; auto|exact A]|]. split; [exact B|].
      intros i [<-|Hi]; [intro F; apply N1, in_or_app; auto|auto]. }
    destruct D as (A & B & C). split; [split; [exact A|intros i Hi; apply R, in_or_app; auto]|]. split; [split; [exact B|intros i Hi; apply R, in_or_app; auto]|exact C].
  Qed.
  Lemma step_frame : forall s s', step add s s' -> good (fst s) (snd s) ->
    (length (fst s) <= length (fst s'))%nat /\ (forall i, In i (fringe (snd s')) -> In i (fringe (snd s)) \/ (length (fst s) <= i)%nat) /\
    (forall i, ~ In i (fringe (snd s)) -> (i < length (fst s))%nat -> nth_error (fst s') i = nth_error (fst s) i) /\
    good (fst s') (snd s') /\ additions (snd s) = S (additions (snd s')) /\
    forall v, value (fst s) (snd s) = Ok v -> value (fst s') (snd s') = Ok v.
  Proof.
    intros s s' H. induction H as [h i j h' k A|h p q h' p' H IH|h p q h' q' H IH]; intro G; cbn [fst snd] in *.
    - destruct S_add as [_ S2]. destruct (S2 _ _ _ _ _ A) as (a & b & c & E1 & E2 & E3 & E4 & E5 & E6 & E7). destruct G as [N R]. cbn [fringe app] in *.
      split; [exact E6|]. split; [intros m [<-|[]]; destruct E5 as [->|E5]; auto; left; left; reflexivity|]. split; [intros m M L; apply E7; [intros ->; apply M; left; reflexivity|exact L]|].
      split; [split; [constructor; [intros []|constructor]|intros m [<-|[]]; apply nth_error_Some; congruence]|]. split; [reflexivity|].
      intros v V. cbn [value] in V |- *. rewrite E1, E2 in V. cbn [obind] in V. rewrite E4. congruence.
    - destruct (good_sum _ _ _ G) as (Gp & Gq & D). destruct (IH Gp) as (L & F & K & G' & C & V).
      split; [exact L|]. cbn [fringe additions] in *.
      assert (KQ : forall m, In m (fringe q) -> nth_error h' m = nth_error h m) by (intros m M; apply K; [intro X; exact (D _ X M)|apply Gq; exact M]).
      split; [intros m M; apply in_app_or in M as [M|M]; [destruct (F m M) as [X|X]; [left; apply in_or_app; auto|right; exact X]|left; apply in_or_app; auto]|].
      split; [intros m M Lm; apply K; [intro X; apply M, in_or_app; auto|exact Lm]|].
      split; [split|split; [lia|]].
      + cbn [fringe]. assert (ND : forall a b : list nat, NoDup a -> NoDup b -> (forall m, In m a -> ~ In m b) -> NoDup (a ++ b)).
        { clear. induction a as [|x a IH]; intros b A B D; cbn [app]; [exact B|]. inversion A; subst. constructor; [intro X; apply in_app_or in X as [X|X]; [contradiction|exact (D x (or_introl eq_refl) X)]|apply IH; auto; intros m M; apply D; right; exact M]. }
        apply ND; [apply G'|apply Gq|]. intros m M Mq. destruct (F m M) as [X|X]; [exact (D m X Mq)|]. pose proof (proj2 Gq m Mq). lia.
      + intros m M. apply in_app_or in M as [M|M]; [apply G'; exact M|]. pose proof (proj2 Gq m M). lia.
      + intros v X. cbn [value] in X |- *. destruct (value h p) as [a|?|?]; cbn [obind] in X; try discriminate. rewrite (V a eq_refl). cbn [obind]. rewrite (value_ext h h' q KQ). exact X.
    - destruct (good_sum _ _ _ G) as (Gp & Gq & D). destruct (IH Gq) as (L & F & K & G' & C & V).
      split; [exact L|]. cbn [fringe additions] in *.
      assert (KP : forall m, In m (fringe p) -> nth_error h' m = nth_error h m) by (intros m M; apply K; [intro X; exact (D _ M X)|apply Gp; exact M]).
      split; [intros m M; apply in_app_or in M as [M|M]; [left; apply in_or_app; auto|destruct (F m M) as [X|X]; [left; apply in_or_app; auto|right; exact X]]|].
      split; [intros m M Lm; apply K; [intro X; apply M, in_or_app; auto|exact Lm]|].
      split; [split|split; [lia|]].
      + cbn [fringe]. assert (ND : forall a b : list nat, NoDup a -> NoDup b -> (forall m, In m a -> ~ In m b) -> NoDup (a ++ b)).
        { clear. induction a as [|x a IH]; intros b A B D; cbn [app]; [exact B|]. inversion A; subst. constructor; [intro X; apply in_app_or in X as [X|X]; [contradiction|exact (D x (or_introl eq_refl) X)]|apply IH; auto; intros m M; apply D; right; exact M]. }
        apply ND; [apply Gp|apply G'|]. intros m M Mq. destruct (F m Mq) as [X|X]; [exact (D m M X)|]. pose proof (proj2 Gp m M). lia.
      + intros m M. apply in_app_or in M as [M|M]; [pose proof (proj2 Gp m M); lia|apply G'; exact M].
      + intros v X. cbn [value] in X |- *. rewrite (value_ext h h' p KP). destruct (value h p) as [a|?|?]; cbn [obind] in *; try discriminate. destruct (value h q) as [b|?|?]; cbn [obind] in X; try discriminate. rewrite (V b eq_refl). exact X.
  Qed.
  Lemma progress : forall h w v, good h w -> value h w = Ok v -> (exists s, step add (h, w) s) \/ (exists k, w = Ref k /\ nth_error h k = Some v).
  Proof.
    intros h w. induction w as [k|p IHp q IHq]; intros v G V.
    - right. exists k. split; [reflexivity|]. cbn [value] in V. destruct (nth_error h k); congruence.
    - left. destruct (good_sum _ _ _ G) as (Gp & Gq & _). cbn [value] in V. destruct (value h p) as [a|?|?]; cbn [obind] in V; try discriminate. destruct (value h q) as [b|?|?]; cbn [obind] in V; try discriminate.
      destruct (IHp a Gp eq_refl) as [[[h' p'] S1]|(i & -> & A)]; [eexists; apply step_left; exact S1|].
      destruct (IHq b Gq eq_refl) as [[[h' q'] S1]|(j & -> & B)]; [eexists; apply step_right; exact S1|].
      destruct (proj1 S_add h i j a b v A B V) as (h' & k & E). eexists. apply step_add. exact E.
  Qed.
  Lemma value_returns : forall h w v, good h w -> value h w = Ok v -> returns add h w v.
  Proof.
    intros h w v G V n h' w' St. remember (h, w) as s eqn:Es. remember (h', w') as t eqn:Et. revert h w G V Es. induction St as [s|n s t0 u H St IH]; intros h w G V Es; subst.
    - injection Es as -> ->. split; [lia|]. apply progress; assumption.
    - destruct t0 as [h1 w1]. destruct (step_frame _ _ H G) as (_ & _ & _ & G1 & C & V1). cbn [fst snd] in *.
      destruct (IH eq_refl h1 w1 G1 (V1 v V) eq_refl) as [L R]. split; [lia|exact R].
  Qed.
  (** An invariant of the values, relating each object to the samples it holds. *)
  Lemma value_inv : forall (A : Type) (P : I -> list A -> Prop) h (ls : list (list A)), length ls = length h ->
    (forall i a l, nth_error h i = Some a -> nth_error ls i = Some l -> P a l) ->
    (forall a b l m, P a l -> P b m -> exists c, iadd a b = Ok c /\ P c (l ++ m)) ->
    forall w, (forall i, In i (fringe w) -> (i < length h)%nat) -> exists v, value h w = Ok v /\ P v (concat (map (fun i => nth i ls []) (fringe w))).
  Proof.
    intros A P h ls L PL PM. induction w as [i|p IHp q IHq]; intro R; cbn [value fringe] in *.
    - pose proof (R i (or_introl eq_refl)) as Hi. destruct (nth_error h i) as [a|] eqn:E; [|apply nth_error_None in E; lia]. exists a. split; [reflexivity|]. cbn [map concat]. rewrite app_nil_r.
      apply (PL i); [exact E|]. apply nth_error_nth'. lia.
    - destruct IHp as (a & Ea & Pa); [intros i Hi; apply R, in_or_app; auto|]. destruct IHq as (b & Eb & Pb); [intros i Hi; apply R, in_or_app; auto|]. rewrite Ea, Eb. cbn [obind].
      destruct (PM _ _ _ _ Pa Pb) as (c & Ec & Pc). exists c. split; [exact Ec|]. rewrite map_app, concat_app. exact Pc.
  Qed.
  Lemma map_nth_seq : forall (A : Type) (d : A) (l : list A), map (fun i => nth i l d) (seq 0 (length l)) = l.
  Proof. intros A d l. induction l as [|x l IH]; [reflexivity|]. cbn [length seq map nth]. f_equal. rewrite <- seq_shift, map_map. exact IH. Qed.
  Lemma tree_inv : forall (A : Type) (P : I -> list A -> Prop) h (ls : list (list A)) w, length ls = length h ->
    (forall i a l, nth_error h i = Some a -> nth_error ls i = Some l -> P a l) ->
    (forall a b l m, P a l -> P b m -> exists c, iadd a b = Ok c /\ P c (l ++ m)) ->
    tree_of (length h) w -> exists v, returns add h w v /\ P v (concat ls).
  Proof.
    intros A P h ls w L PL PM T. unfold tree_of in T.
    assert (R : forall i, In i (fringe w) -> (i < length h)%nat) by (rewrite T; intros i Hi; apply in_seq in Hi; lia).
    destruct (value_inv A P h ls L PL PM w R) as (v & V & H). exists v. rewrite T, <- L, map_nth_seq in H. split; [|exact H].
    apply value_returns; [|exact V]. split; [rewrite T; apply seq_NoDup|exact R].
  Qed.
End Execution.

Lemma py_add_sound : forall (I : Type) (iadd : I -> I -> outcome I), sound_add iadd (py_add iadd).
Proof.
  intros I iadd. unfold py_add, copy_copy. split.
  - intros h i j a b c A B C. rewrite A, B, C. eexists. eexists. reflexivity.
  - intros h i j h' k E. destruct (nth_error h i) as [a|] eqn:A; [|discriminate]. destruct (nth_error h j) as [b|] eqn:B; [|discriminate]. destruct (iadd a b) as [c|?|?] eqn:C; cbn [obind] in E; try discriminate.
    assert (E1 : set_nth i c h = h') by congruence. assert (E2 : i = k) by congruence. subst h' k. exists a, b, c.
    assert (L : forall (l : list I) n, length (set_nth n c l) = length l) by (clear; induction l as [|x l IH]; intros [|n]; cbn; auto).
    repeat (split; [first [assumption|reflexivity]|]). split; [apply nth_error_set_nth_eq, nth_error_Some; congruence|]. split; [left; reflexivity|]. split; [rewrite L; lia|]. intros m M _. apply nth_error_set_nth_neq. congruence.
Qed.
Lemma core_add_sound : forall (I : Type) (iadd : I -> I -> outcome I), sound_add iadd (core_add iadd).
Proof.
  intros I iadd. unfold core_add. split.
  - intros h i j a b c A B C. rewrite A, B, C. eexists. eexists. reflexivity.
  - intros h i j h' k E. destruct (nth_error h i) as [a|] eqn:A; [|discriminate]. destruct (nth_error h j) as [b|] eqn:B; [|discriminate]. destruct (iadd a b) as [c|?|?] eqn:C; cbn [obind] in E; try discriminate.
    assert (E1 : h ++ [c] = h') by congruence. assert (E2 : length h = k) by congruence. subst h' k. exists a, b, c.
    repeat (split; [first [assumption|reflexivity]|]). split; [rewrite nth_error_app2, Nat.sub_diag by lia; reflexivity|]. split; [right; lia|]. split; [rewrite app_length; lia|]. intros m _ M. apply nth_error_app1. exact M.
Qed.
Lemma map_blocks_ok : forall (A B C : Type) (f : A -> outcome B) (g : A -> C) (P : B -> C -> Prop) l, (forall a, In a l -> exists b, f a = Ok b /\ P b (g a)) ->
  exists h, map_blocks f l = Ok h /\ length h = length l /\ forall i b c, nth_error h i = Some b -> nth_error (map g l) i = Some c -> P b c.
Proof.
  intros A B C f g P l. induction l as [|a l IH]; intro H; cbn [map_blocks].
  - exists []. split; [reflexivity|]. split; [reflexivity|]. intros [|i] b c X; discriminate.
  - destruct (H a (or_introl eq_refl)) as (b & E & Pb). destruct IH as (h & E' & L & Q); [intros x Hx; apply H; right; exact Hx|]. rewrite E, E'. cbn [obind]. exists (b :: h). split; [reflexivity|]. split; [cbn; lia|].
    intros [|i] b' c X Y; cbn in X, Y; [congruence|]. exact (Q i b' c X Y).
Qed.
