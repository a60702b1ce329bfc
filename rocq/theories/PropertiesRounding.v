(** * PropertiesRounding.v - C105: rounding makes no energy negative *)
From Coq Require Import ZArith List Bool Reals Lra Floats.SpecFloat.
From Flocq Require Import Core BinarySingleNaN.
From Verif Require Import Num NumSF NumB ModelTypes ModelConsts ModelParticle ModelGeometry ModelMaterial ModelBca
  ProofsFloat SpecFloat64 ProofsRounding ToyRun ToyRounding.
Import ListNotations.
Open Scope R_scope.

(** One collision in binary64, any potential, root finder and quadrature: what
    the partner receives is NaN or between nothing and all of the energy. *)
Theorem C105_a_collision_takes_no_more_than_there_is_partial :
  forall lm, sane_libm lm -> forall (build : Build f64) (p1 p2 : Particle f64) bcg options r,
    plain_mass (p_m p1) -> plain_mass (p_m p2) -> same_or_apart (p_m p1) (p_m p2) ->
    is_finite (p_E p1) = true -> 0 <= B2R (p_E p1) ->
    @calculate_binary_collision f64 (NumB lm) build p1 p2 bcg options = Ok (Some r) ->
    is_nan (bcr_recoil_energy r) = true \/
    (is_finite (bcr_recoil_energy r) = true /\ 0 <= B2R (bcr_recoil_energy r) <= B2R (p_E p1)).
Proof.
  intros lm SL build p1 p2 bcg options r H1 H2 HM F1 L1 H.
  destruct (collision_fair lm SL p1 p2 build bcg options r H1 H2 HM (fair_fin _ F1 L1) H) as (_ & _ & K). exact (K F1).
Qed.
Print Assumptions C105_a_collision_takes_no_more_than_there_is_partial.

(** A complete simulation in binary64, any potential, quadrature, electronic
    stopping mode and geometry: every particle that comes back has an energy
    that is a number and not negative. *)
Theorem C105_energies_never_negative_partial :
  forall lm, sane_libm lm -> forall (build : Build f64) (mat : Material f64) (options : Options f64) fuel ion rng n out n',
    tame_target mat ion -> not_negative (p_E ion) ->
    @single_ion_bca f64 (NumB lm) build mat options fuel ion rng n = Ok (out, n') ->
    Forall (fun p => not_negative (p_E p)) out.
Proof.
  intros lm SL build mat options fuel ion rng n out n' T HE H. exact (run_sound lm SL mat ion build options fuel rng n out n' T HE H).
Qed.
Print Assumptions C105_energies_never_negative_partial.

#[local] Existing Instance toy64.
(** Non-vacuity: helium on copper, with recoils. *)
Example C105_helium_on_copper :
  sane_libm clamped /\
  exists mesh ion out n,
    mesh0d_new copper64_input = Ok mesh /\ from_input helium64 options64 = Ok ion /\
    tame_target (copper64 mesh) ion /\ not_negative (p_E ion) /\
    single_ion_bca None (copper64 mesh) options64 200 ion rng64 0%nat = Ok (out, n) /\ (2 <= length out)%nat.
Proof.
  split; [exact clamped_sane|].
  destruct (run64_inv _ _ _ run64_recoils) as (mesh & ion & Hm & Hi & Ht). apply recoils64_inv in Ht.
  destruct Ht as (HC & out & n & Ho & Hl).
  exists mesh, ion, out, n. split; [exact Hm|]. split; [exact Hi|]. destruct masses64 as (M1 & M2 & M3 & M4).
  destruct energies64 as (E1 & E2 & E3).
  apply from_input_fields in Hi. destruct Hi as (Em & Es & EE). change (pi_m helium64) with he_mass in Em.
  split; [|split; [|split; [exact Ho|exact Hl]]].
  - split.
    + split.
      * rewrite Em. constructor; [exact M2|]. constructor; [exact M1|constructor].
      * rewrite Em. intros a b [<-|[<-|[]]] [<-|[]]; assumption.
    + constructor; [exact E2|constructor].
    + rewrite Es. constructor; [exact E3|]. constructor; [exact E1|constructor].
    + intros x y z cs H. assert (I' : forall x y : list f64, Ok x = Ok y -> x = y) by congruence. apply I' in H. subst cs. exact HC.
    + exists SBC_INDIVIDUAL. reflexivity.
  - rewrite EE. unfold not_negative. vm_compute. reflexivity.
Qed.
Print Assumptions C105_helium_on_copper.

(** It fails for masses that are almost, but not exactly, the same: copper of
    mass 63.550000000000004 u on copper of mass 63.55 u.  The computed kinematic
    factor of a head-on collision is larger than 1, the ion's energy becomes
    negative, its electronic stopping is NaN and the run ends in an assertion. *)
Theorem C105_refuted_masses_that_are_almost_the_same :
  sane_libm clamped /\
  exists mesh ion,
    mesh0d_new copper64_input = Ok mesh /\ from_input twin64 options64 = Ok ion /\
    not_negative (p_E ion) /\
    Forall plain_mass (p_m ion :: mat_m (copper64 mesh)) /\
    Forall plain_number (mat_Ec (copper64 mesh)) /\ Forall plain_number (p_Es ion :: mat_Es (copper64 mesh)) /\
    (forall x y z cs, g_get_concentrations (mat_geometry (copper64 mesh)) x y z = Ok cs -> Forall plain_number cs) /\
    single_ion_bca None (copper64 mesh) options64 200 ion head_on64 0%nat = Panic AssertFail.
Proof.
  split; [exact clamped_sane|].
  destruct (run64_inv _ _ _ twin64_asserts) as (mesh & ion & Hm & Hi & Ht). apply asserts64_inv in Ht.
  destruct Ht as (HC & HE & Hr).
  exists mesh, ion. split; [exact Hm|]. split; [exact Hi|]. destruct masses64 as (M1 & _).
  destruct energies64 as (E1 & E2 & E3).
  apply from_input_fields in Hi. destruct Hi as (Em & Es & EE). change (pi_m twin64) with twin_mass in Em.
  split; [apply (lt_nn b0); [reflexivity|exact HE]|].
  split; [rewrite Em; constructor; [exact twin_plain|constructor; [exact M1|constructor]]|].
  split; [constructor; [exact E2|constructor]|].
  split; [rewrite Es; constructor; [exact E1|constructor; [exact E1|constructor]]|].
  split; [|exact Hr].
  intros x y z cs H. assert (I' : forall x y : list f64, Ok x = Ok y -> x = y) by congruence. apply I' in H. subst cs. exact HC.
Qed.
Print Assumptions C105_refuted_masses_that_are_almost_the_same.
