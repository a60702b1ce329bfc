(** * SpecDistributions.v - vocabulary of the statements about the histograms of a run *)
From Coq Require Import ZArith List Bool String.
From Verif Require Import Num ModelTypes ModelOutput ModelToml SpecToml.
Import ListNotations.
Open Scope string_scope.
Open Scope nat_scope.
Section SpecDistributions.
  Context {F : Type} {NF : Num F}.
  (** the keys of the histogram axes (docs: distributions) *)
  Definition axis_keys : list string :=
    ["energy_min"; "energy_max"; "energy_num"; "angle_min"; "angle_max"; "angle_num"; "x_min"; "x_max"; "x_num";
     "y_min"; "y_max"; "y_num"; "z_min"; "z_max"; "z_num"].
  (** an options section that says these axes *)
  Definition axes_written (l : list (string * Toml F)) (d : DistOptions F) : Prop :=
    given l "energy_min" (TFloat (d_energy_min d)) /\ given l "energy_max" (TFloat (d_energy_max d)) /\ given l "energy_num" (w_nat (d_energy_num d)) /\
    given l "angle_min" (TFloat (d_angle_min d)) /\ given l "angle_max" (TFloat (d_angle_max d)) /\ given l "angle_num" (w_nat (d_angle_num d)) /\
    given l "x_min" (TFloat (d_x_min d)) /\ given l "x_max" (TFloat (d_x_max d)) /\ given l "x_num" (w_nat (d_x_num d)) /\
    given l "y_min" (TFloat (d_y_min d)) /\ given l "y_max" (TFloat (d_y_max d)) /\ given l "y_num" (w_nat (d_y_num d)) /\
    given l "z_min" (TFloat (d_z_min d)) /\ given l "z_max" (TFloat (d_z_max d)) /\ given l "z_num" (w_nat (d_z_num d)).
  (** the entries of a histogram added up *)
  Definition total1 (h : list nat) : nat := list_sum h.
  Definition total2 (h : list (list nat)) : nat := list_sum (map list_sum h).
End SpecDistributions.
