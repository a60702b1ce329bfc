(** * SpecAngle.v - the classical scattering integral and the rules that approximate it *)
From Coq Require Import Reals.
Open Scope R_scope.

(** A particle of relative energy [E] and impact parameter [p] in the potential
    [V], closest at [r0], is deflected by
      theta = pi - integral over r from r0 to infinity of scattering_density. *)
Definition scattering_density (V : R -> R) (E p r : R) : R :=
  2 * p / (r * r * sqrt (1 - V r / E - (p / r) * (p / r))).
(** the radial kinetic energy at distance r0 / u, in units of E *)
Definition radial (V : R -> R) (E p r0 u : R) : R := 1 - V (r0 / u) / E - (p * u / r0) * (p * u / r0).
(** With r = r0 / cos (pi t / 2), 0 < t < 1, the integral becomes pi p / r0 times
    the integral of [flight] over (0, 1). *)
Definition flight (V : R -> R) (E p r0 t : R) : R :=
  sin (PI / 2 * t) / sqrt (radial V E p r0 (cos (PI / 2 * t))).
(** The four points of the Gauss-Lobatto rule on [0, 1] are 0, 1 (weights 1/12)
    and these two (weights 5/12). *)
Definition lobatto_1 : R := (1 - / sqrt 5) / 2.
Definition lobatto_2 : R := (1 + / sqrt 5) / 2.

(** The "magic formula" of Biersack and Haggmark (1980).  In units of the
    screening length: impact parameter [B], closest approach [R0], sum of the
    radii of curvature [Rc] of the two trajectories there; [eps] is the reduced
    energy.  The triangle gives cos (theta/2) = (B + Rc + Delta) / (R0 + Rc). *)
Record magic_parameters := mkMagic { C1 : R; C2 : R; C3 : R; C4 : R; C5 : R }.
Definition magic_correction (c : magic_parameters) (eps B R0 : R) : R :=
  let alpha := 1 + C1 c / sqrt eps in
  let beta := (C2 c + sqrt eps) / (C3 c + sqrt eps) in
  let gamma := (C4 c + eps) / (C5 c + eps) in
  let A := 2 * alpha * eps * Rpower B beta in
  let G := gamma / (sqrt (1 + A * A) - A) in
  A * (R0 - B) / (1 + G).
Definition magic_angle (c : magic_parameters) (eps B R0 Rc : R) : R :=
  2 * acos ((B + Rc + magic_correction c eps B R0) / (R0 + Rc)).
Definition magic_Moliere := mkMagic (6743 / 10000) (9611 / 1000000) (5175 / 1000000) (6314 / 1000) 10.
Definition magic_KrC := mkMagic (7887 / 10000) (1166 / 100000) (6913 / 1000000) (1716 / 100) (1079 / 100).
Definition magic_ZBL := mkMagic (99229 / 100000) (11615 / 1000000) (71222 / 10000000) (93066 / 10000) (14813 / 1000).
Definition magic_TRIDYN := mkMagic (10144 / 10000) (235809 / 1000000) (126 / 1000) 69350 83550.
