(** * SpecDist.v - vocabulary for sampling distributions (C112).

    A quantity computed from a random number u, uniform on (0, 1), has the
    distribution function P when [X <= r] holds exactly for the u with
    [u <= P r]; and the tail T when [s < X] holds exactly for [u < T s]. *)
From Coq Require Import Reals.
From Verif Require Import SpecR.
Open Scope R_scope.

(** uniform on [0, a): the part of it up to r *)
Definition uniform_up_to (a r : R) : R := r / a.
(** uniform over the disc's k-th ring; all rings have the area of a unit cell,
    N^(-2/3): the part of the ring within distance r of the centre *)
Definition ring_up_to (N : R) (k : nat) (r : R) : R := (PI * (r * r) - INR k * Rpower N (-2 / 3)) / Rpower N (-2 / 3).
(** exponential with mean a: the probability to exceed s *)
Definition exponential_beyond (a s : R) : R := exp (- s / a).
(** no atom within distance s of a path of length L at density N (Poisson) *)
Definition empty_cylinder (N L s : R) : R := exp (- (N * (PI * (s * s) * L))).
