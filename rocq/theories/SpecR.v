(** * SpecR.v - vocabulary of the statements about exact (real) arithmetic *)
From Coq Require Import ZArith List Bool Reals.
From Verif Require Import Num NumR ModelTypes.
Import ListNotations.
Open Scope R_scope.

(** ** vectors *)
Definition vdot (v w : Vector R) : R := vx v * vx w + vy v * vy w + vz v * vz w.
Definition vplus (v w : Vector R) : Vector R := mkV (vx v + vx w) (vy v + vy w) (vz v + vz w).
Definition vminus (v w : Vector R) : Vector R := mkV (vx v - vx w) (vy v - vy w) (vz v - vz w).
Definition vscale (s : R) (v : Vector R) : Vector R := mkV (s * vx v) (s * vy v) (s * vz v).
Definition is_unit (v : Vector R) : Prop := vdot v v = 1.
(** not along the x axis *)
Definition off_axis (v : Vector R) : Prop := Rabs (vx v) < 1.

(** momentum of a particle of mass [m] and kinetic energy [E] moving along [d] *)
Definition momentum (m E : R) (d : Vector R) : Vector R := vscale (sqrt (2 * m * E)) d.

Definition Rsum (l : list R) : R := fold_right Rplus 0 l.

(** distance and unit vector from [a] to [b] *)
Definition vdist (a b : Vector R) : R := sqrt (vdot (vminus b a) (vminus b a)).
Definition vtoward (a b : Vector R) : Vector R := vscale (/ vdist a b) (vminus b a).
Definition isotropic (m : SurfaceBindingModel) : bool :=
  match m with ISOTROPIC _ => true | _ => false end.

(** ** the plane *)
Definition dist2 (px py qx qy : R) : R := sqrt ((px - qx) * (px - qx) + (py - qy) * (py - qy)).
(** (px, py) is a point of the segment from (ax, ay) to (bx, by) *)
Definition on_segment (ax ay bx by' px py : R) : Prop :=
  exists t, 0 <= t <= 1 /\ px = ax + t * (bx - ax) /\ py = ay + t * (by' - ay).
(** [d] is the distance of (x, y) from the set [S] of points, and is attained *)
Definition is_distance_to (S : R -> R -> Prop) (x y d : R) : Prop :=
  (exists px py, S px py /\ d = dist2 x y px py) /\ (forall px py, S px py -> d <= dist2 x y px py).
(** (px, py) is a convex combination of three points *)
Definition in_hull (x1 y1 x2 y2 x3 y3 px py : R) : Prop :=
  exists a b c, 0 <= a /\ 0 <= b /\ 0 <= c /\ a + b + c = 1 /\
    px = a * x1 + b * x2 + c * x3 /\ py = a * y1 + b * y2 + c * y3.
(** ** nearest points in space *)
Definition is_nearest (S : Vector R -> Prop) (v c : Vector R) : Prop :=
  S c /\ forall q, S q -> vdist v c <= vdist v q.

(** ** geometries *)
From Verif Require Import ModelConsts ModelGeometry.
Open Scope R_scope.
(** inside => inside the energy barrier => inside the simulation boundary *)
Definition nested (g : Geometry R) : Prop := forall x y z,
  (g_inside g x y z = true -> g_inside_energy_barrier g x y z = Ok true) /\
  (g_inside_energy_barrier g x y z = Ok true -> g_inside_simulation_boundary g x y z = true).
(** [cs] is a probability vector with [n] entries *)
Definition probability_vector (n : nat) (cs : list R) : Prop :=
  length cs = n /\ Forall (fun c => 0 <= c <= 1) cs /\ Rsum cs = 1.
(** the queries of a ball of radius [r] centred at the origin *)
Definition ball_queries (r : R) (q : BallQueries R) : Prop :=
  (forall x y z, bq_contains q x y z = true <-> sqrt (x * x + y * y + z * z) <= r) /\
  (forall x y z, bq_distance_solid q x y z = Rmax 0 (sqrt (x * x + y * y + z * z) - r)).

(** ** collisions *)
(** the potentials of the form Coulomb potential times screening function *)
Definition screened (ip : InteractionPotential R) : Prop :=
  match ip with MOLIERE | KR_C | ZBL | LENZ_JENSEN | TRIDYN => True | _ => False end.
(** [r] is a classical turning point of the relative motion in the potential [V]
    at relative energy [E] and impact parameter [p] *)
Definition turning_point (V : R -> R) (E p r : R) : Prop := 1 - V r / E - (p / r) * (p / r) = 0.
(** the only positive turning point *)
Definition unique_turning_point (V : R -> R) (E p r : R) : Prop :=
  0 < r /\ turning_point V E p r /\ forall r', 0 < r' -> turning_point V E p r' -> r' = r.
(** relative energy in units of the Coulomb energy of the two nuclei one
    screening length apart *)
Definition reduced_energy (a Za Zb E : R) : R := a * E / (Za * Zb * cQ * cQ / 4 / PI / cEPS0).
(** value at [t] of the polynomial with the given coefficients, highest power first *)
Definition poly_eval (cs : list R) (t : R) : R := fold_left (fun acc c => acc * t + c) cs 0.
