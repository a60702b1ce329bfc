(** * SpecEntry.v - what a caller of the C, Fortran and Python entry points asks for *)
From Coq Require Import ZArith List Bool Reals.
From Verif Require Import Num NumR ModelTypes ModelConsts ModelMaterial ModelBca SpecR.
Import ListNotations.
Open Scope R_scope.

(** a fresh incident ion: mass in amu, cutoff and surface binding energy in eV,
    energy in joule, at [pos], moving along [u] *)
Record requested_ion (Z1 m1 Ec1 Es1 E : R) (pos u : Vector R) (p : Particle R) : Prop := {
  ri_Z : p_Z p = Z1; ri_m : p_m p = m1 * cAMU; ri_Ec : p_Ec p = Ec1 * cEV; ri_Es : p_Es p = Es1 * cEV;
  ri_E : p_E p = E; ri_pos : p_pos p = pos; ri_dir : p_dir p = u;
  ri_old : p_pos_old p = pos /\ p_dir_old p = u;
  ri_incident : p_incident p = true; ri_active : p_stopped p = false /\ p_left p = false; ri_first : p_first_step p = true }.
(** a target of the given species: masses in amu, energies in eV *)
Record requested_species (model : SurfaceBindingModel) (Z2 m2 Ec2 Es2 Eb2 : list R) (mat : Material R) : Prop := {
  rt_Z : mat_Z mat = Z2; rt_m : mat_m mat = map (fun m => m * cAMU) m2;
  rt_Ec : mat_Ec mat = map (fun e => e * cEV) Ec2; rt_Es : mat_Es mat = map (fun e => e * cEV) Es2;
  rt_Eb : mat_Eb mat = map (fun e => e * cEV) Eb2; rt_Ed : Forall (fun e => e = 0) (mat_Ed mat);
  rt_interaction : mat_interaction_index mat = repeat 0%nat (length Z2);
  rt_surface : mat_surface_binding_model mat = model; rt_bulk : mat_bulk_binding_model mat = BBM_INDIVIDUAL }.
(** filling the half space x > 0 with the densities [n2] (in 1/unit^3) *)
Record fills_half_space (unit_ : R) (n2 : list R) (mat : Material R) : Prop := {
  rh_densities : forall x y z, g_get_densities (mat_geometry mat) x y z = Ok (map (fun n => n / unit_ ^ 3) n2);
  rh_ck : forall x y z, g_get_ck (mat_geometry mat) x y z = Ok 1;
  rh_inside : forall x y z, g_inside (mat_geometry mat) x y z = true <-> 0 < x }.
(** filling 0 < x < the sum of the thicknesses (in the unit), layer by layer *)
Fixpoint layer_at (dx : list R) (n2 : list (list R)) (x : R) (n : list R) : Prop :=
  match dx, n2 with
  | t :: dx', n0 :: n2' => (0 < x <= t /\ n = n0) \/ (t < x /\ layer_at dx' n2' (x - t) n)
  | _, _ => False
  end.
Record fills_layers (unit_ : R) (dx : list R) (n2 : list (list R)) (mat : Material R) : Prop := {
  rl_densities : forall x y z, 0 < x < unit_ * Rsum dx ->
    exists n, layer_at dx n2 (x / unit_) n /\ g_get_densities (mat_geometry mat) x y z = Ok (map (fun n => n / unit_ ^ 3) n);
  rl_ck : forall x y z, g_get_ck (mat_geometry mat) x y z = Ok 1;
  rl_inside : forall x y z, g_inside (mat_geometry mat) x y z = true <-> 0 < x < unit_ * Rsum dx }.

(** one run after the other, each continuing the random stream; the [k]-th ion
    answers the [k]-th request *)
Inductive runs_of {I : Type} (answers : I -> Particle R -> Prop) (build : Build R) (mat : Material R) (options : Options R)
    (fuel : nat) (rng : Rng R) : list I -> nat -> list (list (Particle R)) -> nat -> Prop :=
| ro_nil n : runs_of answers build mat options fuel rng [] n [] n
| ro_cons i is ion out outs n k n' :
    answers i ion -> single_ion_bca build mat options fuel ion rng n = Ok (out, k) ->
    runs_of answers build mat options fuel rng is k outs n' ->
    runs_of answers build mat options fuel rng (i :: is) n (out :: outs) n'.

(** an ion with the velocity [v], in metres per second *)
Definition moving_with (Z1 m1 Ec1 Es1 : R) (pos v : Vector R) (p : Particle R) : Prop :=
  exists u, requested_ion Z1 m1 Ec1 Es1 (1 / 2 * (m1 * cAMU) * vdot v v) pos u p /\ is_unit u /\ v = vscale (sqrt (vdot v v)) u.
(** an ion of energy [E] eV moving along the (not necessarily unit) vector [d] *)
Definition flying_along (Z1 m1 Ec1 Es1 E : R) (pos d : Vector R) (p : Particle R) : Prop :=
  exists u, requested_ion Z1 m1 Ec1 Es1 (E * cEV) pos u p /\ is_unit u /\ d = vscale (sqrt (vdot d d)) u.
(** at most [e] away in every coordinate *)
Definition near (e : R) (u v : Vector R) : Prop :=
  Rabs (vx u - vx v) <= e /\ Rabs (vy u - vy v) <= e /\ Rabs (vz u - vz v) <= e.
(** [angle] degrees from the inward normal of the surface, in the x-y plane *)
Definition at_angle (angle : R) : Vector R := mkV (cos (angle * PI / 180)) (sin (angle * PI / 180)) 0.
