(** * ToyBarrier.v - hydrogen on copper in binary64: two runs in which a particle
    gets out of the surface barrier without paying. *)
From Coq Require Import ZArith List Bool Floats.SpecFloat.
From Verif Require Import Num NumSF ToyLibm ModelTypes ModelConsts ModelParticle ModelGeometry ModelMaterial ModelBca ToyRun ToyLoss.
Import ListNotations.
Open Scope Z_scope.
Open Scope num_scope.
#[local] Existing Instance series_num.

(** hydrogen bound to the surface by 3 eV; cutoff 1 eV *)
Definition hydrogen (E x ux uy : spec_float) : ParticleInput spec_float := ion_input (nZ 1) (nZ 1) E (nZ 1) (nZ 3) x ux uy.
Definition half : spec_float := nlit 5 (-1).
(** 20 eV, from 3 angstrom above the surface: enters, is scattered back, and
    jumps over the barrier and the simulation boundary in one flight *)
Definition visitor : ParticleInput spec_float := hydrogen (nZ 20) (nZ (-3)) (nlit 8 (-1)) (nlit 6 (-1)).
Definition visitor_draws : list spec_float :=
  [half; nlit 4 (-4); half; nlit 17 (-2); half;  half; nlit 4 (-4); nlit 36 (-2); half;  half; half; nlit 1 (-7); half].
Definition between_eV (lo hi : Z) (E : spec_float) : bool := SFltb (nZ lo *! cEV) E && SFltb E (nZ hi *! cEV).
Definition got_away (lo hi : Z) (o : outcome) : bool :=
  match o with (_, _, ([out], _)) => p_left out && between_eV lo hi (p_E out) | _ => false end.
Lemma visitor_run : passes (got_away 21 22) (run_of LOW_ENERGY_LOCAL GASEOUS 0 60 visitor visitor_draws) = true.
Proof. vm_compute. reflexivity. Qed.
(** 2 eV, behind the barrier (1 angstrom above the surface), flying outwards: the
    barrier reflects it, and it leaves with the next flight *)
Definition prisoner : ParticleInput spec_float := hydrogen (nZ 2) (nZ (-1)) (nlit (-8) (-1)) (nlit 6 (-1)).
Definition prisoner_draws : list spec_float := [half; half; half; nlit 1 (-1); half;   half; half; nlit 1 (-7); half].
Definition got_away_reflected (lo hi : Z) (o : outcome) : bool :=
  match o with
  | (mesh, ion, ([out], n)) => got_away lo hi o && p_backreflected out &&
      match g_inside_energy_barrier (mesh0d_geometry mesh) (vx (p_pos ion)) (vy (p_pos ion)) (vz (p_pos ion)) with Ok b => b | _ => false end
  | _ => false end.
Lemma prisoner_run : passes (got_away_reflected 1 3) (run_of LOW_ENERGY_LOCAL GASEOUS 0 60 prisoner prisoner_draws) = true.
Proof. vm_compute. reflexivity. Qed.
