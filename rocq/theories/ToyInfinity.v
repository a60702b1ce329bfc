(** * ToyInfinity.v - runs for C109: a GASEOUS target and a random number 0 in
    binary64 *)
From Coq Require Import ZArith List Bool Reals Floats.SpecFloat.
From Flocq Require Import Core BinarySingleNaN.
From Verif Require Import Num NumSF NumB ToyLibm ModelTypes ModelConsts ModelParticle ModelGeometry ModelMaterial ModelBca
  ProofsBase ProofsFloat SpecFloat64 SpecSampling64 ToyRun ToyLoss ToyFlight ToyRounding.
Import ListNotations.
(** 100 eV helium, one angstrom before the surface, at (0.8, 0.6); every random
    number 1/2 but the eighth, which is 0 *)
Section Infinity.
  Open Scope Z_scope.
  #[local] Existing Instance series_num.
  Definition slanted : ParticleInput spec_float := ion_input (nZ 4) (nZ 2) (nZ 100) (nZ 1) (nZ 2) (nZ (-1)) (nlit 8 (-1)) (nlit 6 (-1)).
  Definition zero_draws : list spec_float := repeat (nlit 5 (-1)) 7 ++ [nZ 0].
  Definition at_infinity (o : outcome) : bool :=
    match o with
    | (_, _, ([out], _)) => p_stopped out && match vx (p_pos out) with S754_infinity false => true | _ => false end
    | _ => false
    end.
  Lemma infinity_run : passes at_infinity (run_with copper_input (plain_options LOW_ENERGY_NONLOCAL GASEOUS 0) 20 slanted zero_draws) = true.
  Proof. vm_compute. reflexivity. Qed.
  Lemma at_infinity_inv mesh ion out n : at_infinity (mesh, ion, (out, n)) = true ->
    exists p, out = [p] /\ p_stopped p = true /\ vx (p_pos p) = S754_infinity false.
  Proof.
    unfold at_infinity. destruct out as [|p [|]]; try discriminate. intros H. apply andb_true_iff in H. destruct H as [H1 H2].
    exists p. split; [reflexivity|]. split; [exact H1|]. destruct (vx (p_pos p)) as [|[]| |]; try discriminate. reflexivity.
  Qed.
End Infinity.
(** ** 60 eV helium in copper, two weak collisions, any random numbers *)
#[local] Instance clamped_num : Num f64 := NumB clamped.
Definition weak64 (model : MeanFreePathModel f64) : Options f64 := {|
  o_track_trajectories := true; o_track_recoils := true; o_track_recoil_trajectories := false;
  o_write_buffer_size := 8%nat; o_weak_collision_order := 2%nat; o_suppress_deep_recoils := false;
  o_high_energy_free_flight_paths := false; o_electronic_stopping_mode := LOW_ENERGY_NONLOCAL;
  o_mean_free_path_model := model;
  o_interaction_potential := [[KR_C]];
  o_scattering_integral := [[MENDENHALL_WELLER]];
  o_root_finder := [[DEFAULTNEWTON]];
  o_num_threads := 1%nat; o_num_chunks := 1%nat; o_use_hdf5 := false;
  o_track_displacements := false; o_track_energy_losses := true |}.
Lemma res_inv {A B} (a : Res A) (f : A -> Res B) (test : B -> bool) :
  passes (fun x => passes test (f x)) a = true -> exists x y, a = Ok x /\ f x = Ok y /\ test y = true.
Proof.
  destruct a as [x| |]; try discriminate. cbn [passes]. destruct (f x) as [y| |] eqn:E; try discriminate. intros H. exists x, y. auto.
Qed.
Lemma mfp_runs : passes (fun mesh => passes (fun mfp => plain64 mfp && Bleb mfp (nZ 1)) (mat_mfp (copper64 mesh) (nZ 0) (nZ 0) (nZ 0)))
  (mesh0d_new copper64_input) = true.
Proof. vm_compute. reflexivity. Qed.
Lemma copper64_mfp : exists mesh mfp, mesh0d_new copper64_input = Ok mesh /\
  (forall x y z, mat_mfp (copper64 mesh) x y z = Ok mfp) /\ plain_number mfp /\ (B2R mfp <= 1)%R.
Proof.
  destruct (res_inv _ _ _ mfp_runs) as (mesh & mfp & E1 & E & H).
  apply andb_true_iff in H. destruct H as [H1 H2]. apply plain64_ok in H1. exists mesh, mfp.
  split; [exact E1|]. split; [intros x y z; exact E|]. split; [exact H1|].
  destruct one64_ok as [O1 O2]. rewrite <- O2. apply (le_fin mfp one64); [apply H1|exact O1|exact H2].
Qed.
Lemma half64 : random_double (nlit 5 (-1)).
Proof.
  assert (E : B2SF (nlit 5 (-1) : f64) = S754_finite false 4503599627370496 (-53)) by (vm_compute; reflexivity).
  split; [rewrite <- is_finite_SF_B2SF, E; reflexivity|]. rewrite <- SF2R_B2SF, E.
  unfold SF2R, F2R. cbn [Fnum Fexp cond_Zopp]. change (bpow radix2 (-53)) with (/ 9007199254740992)%R. Lra.lra.
Qed.
