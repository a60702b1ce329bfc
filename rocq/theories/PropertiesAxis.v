(** * PropertiesAxis.v - C107: directions have length one *)
From Coq Require Import ZArith List Bool Reals Lra Floats.SpecFloat.
From Verif Require Import Num NumR NumSF NumO ModelTypes ModelConsts ModelParticle ModelGeometry ModelMaterial ModelBca
  Spec SpecPartial ProofsBase ProofsPartial ToyLibm ToyRun ToyLoss ToyFlight ToyAxis.
Import ListNotations.

(** In exact arithmetic with undefined values - where a quotient by zero or a
    root of a negative number is undefined - every direction an accepted ion or
    one of its recoils is returned with, now and one step before, has length one
    or is undefined in all components: no collision, refraction or reflection
    changes its length.  For any target, options, random numbers. *)
Theorem C107_directions_have_length_one_or_none_partial :
  forall build (mat : Material (option R)) options fuel input ion rng n out n',
    @from_input _ NumO input options = Ok ion ->
    @single_ion_bca _ NumO build mat options fuel ion rng n = Ok (out, n') ->
    has_length_one (p_dir ion) /\
    Forall (fun p => unit_or_undefined (p_dir p) /\ unit_or_undefined (p_dir_old p)) out.
Proof.
  intros build mat options fuel input ion rng n out n' Hi H. apply accepted_good in Hi. destruct Hi as (H1 & H2).
  split; [exact H1|]. eapply run_good; [| |exact H]; [left; exact H1|rewrite H2; left; exact H1].
Qed.
Print Assumptions C107_directions_have_length_one_or_none_partial.
Example C107_applies : exists ion out n, @from_input _ NumO o_input nowhere_options = Ok ion /\
  @single_ion_bca _ NumO None (nowhere_material (Some 1%R)) nowhere_options 3 ion (fun _ => Some (1 / 2)%R) 0%nat = Ok ([out], n).
Proof. exact o_run. Qed.

(** In double precision an accepted ion is returned with neither a place nor a
    direction: 1 eV helium, surface binding energy 2 eV, direction (1, 4e-8, 0).
    Refraction at the surface rounds its direction onto the surface normal, the
    next collision divides by zero.  The ion counts as having left, with more
    than twice its energy. *)
#[local] Existing Instance series_num.
Theorem C107_refuted_an_ion_without_place_and_direction :
  exists mesh ion out n,
    mesh0d_new copper_input = Ok mesh /\ from_input almost_normal (plain_options LOW_ENERGY_LOCAL LIQUID 0) = Ok ion /\
    single_ion_bca None (copper mesh) (plain_options LOW_ENERGY_LOCAL LIQUID 0) 20 ion (draws axis_draws) 0%nat = Ok ([out], n) /\
    p_left out = true /\
    p_pos out = mkV S754_nan S754_nan S754_nan /\ p_dir out = mkV S754_nan S754_nan S754_nan /\
    SFltb (nmul (nZ 2) (p_E ion)) (p_E out) = true.
Proof.
  destruct (run_with_inv _ _ _ _ _ _ normal_run) as (mesh & ion & out & n & Hm & Hi & Hr & Ht).
  apply lost_inv in Ht. destruct Ht as (p & -> & H1 & H2 & H3 & H4). exists mesh, ion, p, n.
  split; [exact Hm|]. split; [exact Hi|]. split; [exact Hr|]. split; [exact H1|]. split; [exact H2|]. split; [exact H3|exact H4].
Qed.
#[local] Remove Hints series_num : typeclass_instances.
Print Assumptions C107_refuted_an_ion_without_place_and_direction.
