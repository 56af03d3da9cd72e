(** Theorems about the choice of the functions by their names (C102). *)
From Coq Require Import Ascii.
From Verif Require Import Base WindowModel RbfModel NamesModel.

(** The documented names (src/pyinterp/rtree.py) and the functions they designate. *)
Definition covariance_names : list (string * covariance) :=
  [("matern_12", Matern12); ("matern_32", Matern32); ("matern_52", Matern52); ("whittle_matern", WhittleMatern);
   ("cauchy", Cauchy); ("exponential", Exponential); ("gaussian", CGaussian); ("spherical", Spherical);
   ("linear", CLinear)]%string.
Definition radial_names : list (string * radial) :=
  [("cubic", Cubic); ("gaussian", RGaussian); ("inverse_multiquadric", InverseMultiquadric); ("linear", RLinear);
   ("multiquadric", Multiquadric); ("thin_plate", ThinPlate)]%string.
Definition window_names : list (string * window) :=
  [("blackman", Blackman); ("blackman_harris", BlackmanHarris); ("boxcar", Boxcar); ("flat_top", FlatTop);
   ("gaussian", Gaussian); ("hamming", Hamming); ("lanczos", Lanczos); ("nuttall", Nuttall); ("parzen", Parzen);
   ("parzen_swot", ParzenSWOT)]%string.

Lemma in_names_spec : forall n l, in_names n l = true <-> In n l.
Proof.
  intros n l. unfold in_names. rewrite existsb_exists. split.
  - intros (x & I & E). apply String.eqb_eq in E. subst. exact I.
  - intros I. exists n. split; [exact I|apply String.eqb_refl].
Qed.
Lemma in_names_false : forall n l, in_names n l = false <-> ~ In n l.
Proof. intros n l. rewrite <- in_names_spec. destruct (in_names n l); split; intuition congruence. Qed.

(** ** Windows: every name, and nothing else. *)
Theorem C102_windows : forall name w, In (name, w) window_names -> window_by_name (Some name) = Ok w.
Proof. intros name w H. cbn in H. repeat destruct H as [[= <- <-]|H]; try contradiction; reflexivity. Qed.
Theorem C102_windows_only : forall name, name <> ""%string -> ~ In name (map fst window_names) ->
  window_by_name (Some name) = Throw "ValueError".
Proof.
  intros name Ne H. unfold window_by_name, str_or. destruct (String.eqb_spec name ""); [contradiction|].
  apply in_names_false in H. cbn [map fst window_names] in H. rewrite H. reflexivity.
Qed.

(** ** Radial basis functions: every name, and nothing else; [epsilon] only for the functions that use it. *)
Theorem C102_radial : forall name f epsilon, In (name, f) radial_names ->
  radial_by_name (Some name) epsilon = if epsilon && negb (adjustable f) then Throw "ValueError" else Ok f.
Proof. intros name f epsilon H. cbn in H. repeat destruct H as [[= <- <-]|H]; try contradiction; destruct epsilon; reflexivity. Qed.
Theorem C102_radial_only : forall name epsilon, name <> ""%string -> ~ In name (map fst radial_names) ->
  radial_by_name (Some name) epsilon = Throw "ValueError".
Proof.
  intros name epsilon Ne H. unfold radial_by_name, str_or. destruct (String.eqb_spec name ""); [contradiction|].
  assert (H1 : in_names name ["cubic"; "linear"; "thin_plate"]%string = false) by (apply in_names_false; cbn in *; tauto).
  assert (H2 : in_names name (["gaussian"; "inverse_multiquadric"; "multiquadric"]%string ++ ["cubic"; "linear"; "thin_plate"]%string) = false)
    by (apply in_names_false; cbn in *; tauto).
  rewrite H1, H2. destruct epsilon; reflexivity.
Qed.

(** ** Covariances: seven of the nine documented names. *)
Theorem C102_covariances_partial : forall name c, In (name, c) covariance_names -> c <> Cauchy -> c <> WhittleMatern ->
  covariance_by_name (Some name) = Ok c.
Proof. intros name c H N1 N2. cbn in H. repeat destruct H as [[= <- <-]|H]; try contradiction; reflexivity. Qed.
Theorem C102_covariances_only : forall name, name <> ""%string -> ~ In name (map fst covariance_names) ->
  covariance_by_name (Some name) = Throw "ValueError".
Proof.
  intros name Ne H. unfold covariance_by_name, str_or. destruct (String.eqb_spec name ""); [contradiction|].
  assert (H1 : in_names name ["exponential"; "gaussian"; "linear"; "matern_12"; "matern_32"; "matern_52";
              "spherical"; "whittle_matern"]%string = false) by (apply in_names_false; cbn in *; tauto).
  rewrite H1. reflexivity.
Qed.
(** Two documented functions cannot be used: no name gives them. *)
Theorem C102_covariances_refuted :
  covariance_by_name (Some "cauchy"%string) = Throw "ValueError" /\
  covariance_by_name (Some "whittle_matern"%string) = Throw "AttributeError" /\
  forall name, covariance_by_name name <> Ok Cauchy /\ covariance_by_name name <> Ok WhittleMatern.
Proof.
  split; [reflexivity|]. split; [reflexivity|].
  assert (G : forall n, n <> ""%string -> covariance_by_name (Some n) <> Ok Cauchy /\ covariance_by_name (Some n) <> Ok WhittleMatern).
  { intros n Ne. destruct (in_dec String.string_dec n (map fst covariance_names)) as [I|I].
    - cbn in I. repeat destruct I as [<-|I]; try contradiction; split; discriminate.
    - rewrite C102_covariances_only by assumption. split; discriminate. }
  intros [n|]; [|split; discriminate]. destruct (String.string_dec n "") as [->|Ne]; [split; discriminate|apply G, Ne].
Qed.
(** ** The defaults *)
Theorem C102_defaults : covariance_by_name None = Ok Matern32 /\ covariance_by_name (Some ""%string) = Ok Matern32 /\
  radial_by_name None true = Ok Multiquadric /\ radial_by_name None false = Ok Multiquadric /\
  window_by_name None = Ok Blackman /\ window_by_name (Some ""%string) = Ok Blackman.
Proof. repeat split; reflexivity. Qed.
