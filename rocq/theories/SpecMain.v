(** * SpecMain.v - vocabulary of the statements about the whole program and its files *)
From Coq Require Import ZArith List Bool String.
From Verif Require Import Num ModelTypes ModelToml SpecToml.
Import ListNotations.
Open Scope string_scope.
Open Scope nat_scope.

(** the files of a run with this name (docs: output files) *)
Definition output_names (name : string) : list string :=
  map (append name) ["reflected.output"; "sputtered.output"; "deposited.output"; "trajectories.output"; "trajectory_data.output";
                     "displacements.output"; "energy_loss.output"; "summary.output"].
Section SpecMain.
  Context {F : Type}.
  (** the document gives this name to the run *)
  Definition named (t : Toml F) (name : string) : Prop :=
    exists l lo, t = TTable l /\ given l "options" (TTable lo) /\ given lo "name" (TString name).
  (** the document asks for [n] ions: the sum of the numbers N, as many as there are atomic numbers Z *)
  Definition asks_for (t : Toml F) (n : nat) : Prop :=
    exists l lp N Z, t = TTable l /\ given l "particle_parameters" (TTable lp) /\
      given lp "N" (TArray (map (fun k => TInt (Z.of_nat k)) N)) /\ given lp "Z" (TArray Z) /\
      n = list_sum (firstn (List.length Z) N).
  (** the geometry section of the document *)
  Definition geometry_section (t tg : Toml F) : Prop := exists l, t = TTable l /\ given l "geometry_input" tg.
End SpecMain.
