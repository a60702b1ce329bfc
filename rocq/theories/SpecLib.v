(** * SpecLib.v - vocabulary of the statements about the C and Python interfaces *)
From Coq Require Import ZArith List Bool Reals.
From Verif Require Import Num ModelTypes ModelConsts.
Import ListNotations.

(** [k]-th element of [l], [n_k] times, for all [k] in order *)
Definition replicate_each {A} (l : list A) (ns : list nat) : list A :=
  concat (map (fun an => repeat (fst an) (snd an)) (combine l ns)).

Section SpecLib.
  Context {F : Type} {NF : Num F}.

  (** reported to the caller: everything that left, and the incident ion *)
  Definition reported (p : Particle F) : bool := p_left p || p_incident p.
  (** sputtered or reflected: left with positive energy, moving out of the surface *)
  Definition ejected (p : Particle F) : bool := p_left p && nlt (nZ 0) (p_E p) && nlt (vx (p_dir p)) (nZ 0).
  Definition ejected_ion (p : Particle F) : bool := ejected p && p_incident p.
  Definition ejected_recoil (p : Particle F) : bool := ejected p && negb (p_incident p).
  (** the nine numbers of an output row: Z, m in amu, E in eV, a position in
      angstrom, the direction *)
  Definition nine (p : Particle F) (E : F) (v : Vector F) : list F :=
    [p_Z p; ndiv (p_m p) cAMU; E; ndiv (vx v) cANGSTROM; ndiv (vy v) cANGSTROM; ndiv (vz v) cANGSTROM;
     vx (p_dir p); vy (p_dir p); vz (p_dir p)].
End SpecLib.
