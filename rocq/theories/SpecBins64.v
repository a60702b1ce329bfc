(** * SpecBins64.v - vocabulary for histograms in double precision (C130) *)
From Coq Require Import ZArith List Bool Reals Floats.SpecFloat.
From Flocq Require Import Core BinarySingleNaN.
From Verif Require Import Num NumSF NumB ModelTypes ModelParticle ModelOutput.
Import ListNotations.
Open Scope R_scope.
(** in histograms of one particle: the bin that was incremented *)
Definition counted (histogram : list nat) (i : nat) : Prop := nth_error histogram i = Some 1%nat.
Definition counted2 (histogram : list (list nat)) (i j : nat) : Prop := exists row, nth_error histogram i = Some row /\ nth_error row j = Some 1%nat.
(** The first two edges are numbers and the second is above the first. *)
Definition usable_edges (edges : list f64) (e0 e1 : f64) : Prop :=
  nth_error edges 0 = Some e0 /\ nth_error edges 1 = Some e1 /\ is_finite e0 = true /\
  is_finite (Bminus mode_NE e1 e0) = true /\ 0 < B2R (Bminus mode_NE e1 e0).
(** two doubles (numbers) in order *)
Definition in_order (v w : f64) : Prop := is_finite v = true /\ is_finite w = true /\ B2R v <= B2R w.
(** what the program computes of a particle: its position, energy and polar angle in the units of the output *)
Section Of.
  Context {lm : LibmB}.
  Let NB : Num f64 := NumB lm.
  Definition place (coordinate : Vector f64 -> f64) (u : OutputUnits f64) (p : Particle f64) : f64 := Bdiv mode_NE (coordinate (p_pos p)) (ou_length_unit u).
  Definition energy_of (u : OutputUnits f64) (p : Particle f64) : f64 := Bdiv mode_NE (p_E p) (ou_energy_unit u).
  Definition angle_of (u : OutputUnits f64) (p : Particle f64) : f64 := snd (@energy_angle_from_particle f64 NB p u).
End Of.
(** An axis that starts at zero, and its step. *)
Definition edges_from_zero (edges : list f64) (step : f64) : Prop :=
  (exists e0, nth_error edges 0 = Some e0 /\ is_finite e0 = true /\ B2R e0 = 0) /\
  nth_error edges 1 = Some step /\ is_finite step = true /\ 0 < B2R step.
(** a number that is not negative *)
Definition from_zero_up (v : f64) : Prop := is_finite v = true /\ 0 <= B2R v.
(** between i steps (up to one part in 2^53) and i + 1 steps *)
Definition in_step (i : nat) (step v : f64) : Prop :=
  INR i * B2R step * (1 - bpow radix2 (-53)) <= B2R v < INR (S i) * B2R step.
