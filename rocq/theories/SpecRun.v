(** * SpecRun.v - vocabulary of the statements about whole runs and their output *)
From Coq Require Import ZArith List Bool Reals.
From Verif Require Import Num ModelTypes ModelParticle ModelOutput.
Import ListNotations.
Open Scope nat_scope.

(** the distinct elements of a list in order of first appearance *)
Fixpoint first_seen {A} (eqb : A -> A -> bool) (l : list A) : list A :=
  match l with
  | [] => []
  | x :: l' => x :: filter (fun y => negb (eqb x y)) (first_seen eqb l')
  end.
(** how many elements of a list satisfy a test *)
Definition count {A} (test : A -> bool) (l : list A) : nat := length (filter test l).
(** [l] starts with [k] *)
Definition prefix {A} (k l : list A) : Prop := exists r, l = k ++ r.

(** a list cut into consecutive pieces of size [n], the last possibly shorter,
    none empty *)
Inductive cut {A} (n : nat) : list A -> list (list A) -> Prop :=
| cut_last l : 0 < length l -> length l <= n -> cut n l [l]
| cut_more c l cs : length c = n -> 0 < n -> cut n l cs -> cut n (c ++ l) (c :: cs).

Section SpecRun.
  Context {F : Type} {NF : Num F}.

  Definition reflected (p : Particle F) : bool := p_incident p && p_left p.
  Definition not_reflected (p : Particle F) : bool := p_incident p && negb (p_left p).
  Definition sputtered (p : Particle F) : bool := negb (p_incident p) && p_left p.
  Definition deposited (p : Particle F) : bool := p_incident p && p_stopped p.
  Definition displaced (p : Particle F) : bool := negb (p_incident p) && nlt (p_Ed p) (p_energy_origin p).
  (** the comparison of masses is equality on the masses of these particles
      (true of all f64 masses except NaN and a mixture of +0 and -0) *)
  Definition masses_comparable (ps : list (Particle F)) : Prop :=
    forall p q, In p ps -> In q ps -> (neqb (p_m p) (p_m q) = true <-> p_m p = p_m q).
  Definition of_mass (m : F) (p : Particle F) : bool := neqb m (p_m p).

  (** the rows a sequence of output operations writes to one file, in order *)
  Definition rows_of (f : File) (es : list (Event F)) : list (Row F) :=
    flat_map (fun e => match e with Write g r => if File_eqb g f then [r] else [] | Flush _ => [] end) es.
  (** the columns of the list files, in output units *)
  Definition xyz (units : OutputUnits F) (v : Vector F) : Row F :=
    [CF (ndiv (vx v) (ou_length_unit units)); CF (ndiv (vy v) (ou_length_unit units)); CF (ndiv (vz v) (ou_length_unit units))].
  Definition mass_and_charge (units : OutputUnits F) (p : Particle F) : Row F :=
    [CF (ndiv (p_m p) (ou_mass_unit units)); CF (p_Z p)].
  Definition in_energy_unit (units : OutputUnits F) (E : F) : Cell F := CF (ndiv E (ou_energy_unit units)).
  Definition heading (p : Particle F) : Row F := [CF (vx (p_dir p)); CF (vy (p_dir p)); CF (vz (p_dir p))].
  Definition reflected_row units (p : Particle F) : Row F :=
    mass_and_charge units p ++ [in_energy_unit units (p_E p)] ++ xyz units (p_pos p) ++ heading p ++ [CN (p_number_collision_events p)].
  Definition sputtered_row units (p : Particle F) : Row F := reflected_row units p ++ xyz units (p_pos_origin p).
  Definition deposited_row units (p : Particle F) : Row F :=
    mass_and_charge units p ++ xyz units (p_pos p) ++ [CN (p_number_collision_events p)].
  Definition displaced_row units (p : Particle F) : Row F :=
    mass_and_charge units p ++ [in_energy_unit units (p_energy_origin p)] ++ xyz units (p_pos_origin p) ++ xyz units (p_pos p).
  Definition trajectory_rows units (p : Particle F) : list (Row F) :=
    map (fun t => mass_and_charge units p ++ [in_energy_unit units (te_E t)] ++ xyz units (mkV (te_x t) (te_y t) (te_z t))) (p_trajectory p).
  Definition energy_loss_rows units (p : Particle F) : list (Row F) :=
    map (fun l => mass_and_charge units p ++ [in_energy_unit units (el_En l); in_energy_unit units (el_Ee l)]
                    ++ xyz units (mkV (el_x l) (el_y l) (el_z l))) (p_energies p).

  (** update the histograms with a sequence of particles *)
  Fixpoint distributions_updates (options : Options F) (units : OutputUnits F) (n : nat) (d : Distributions F) (ps : list (Particle F)) : Res (Distributions F) :=
    match ps with
    | [] => Ok d
    | p :: ps' => let! d := distributions_update options units n d p in distributions_updates options units n d ps'
    end.
End SpecRun.

(** [v] lies in bin number [i] of the axis from [lo] with bin width [w] *)
Definition in_bin (lo w : R) (i : nat) (v : R) : bool :=
  if Rle_dec (lo + INR i * w) v then (if Rlt_dec v (lo + INR (S i) * w) then true else false) else false.
(** [v] is in bin number [i], or [i = 0] and [v] is less than one bin below the axis *)
Definition in_bin_or_just_below (lo w : R) (i : nat) (v : R) : bool :=
  in_bin lo w i v || (Nat.eqb i 0 && (if Rlt_dec (lo - w) v then if Rlt_dec v lo then true else false else false)).
(** [a] is the angle in degrees between the direction [u] and the -x axis (the outward normal) *)
Definition emission_angle (u : Vector R) (a : R) : Prop :=
  (0 <= a <= 180 /\ cos (a * PI / 180) * sqrt (vx u * vx u + vy u * vy u + vz u * vz u) = - vx u)%R.
Definition Rsum (l : list R) : R := fold_right Rplus 0%R l.
(** a usable axis *)
Definition axis_ok (lo hi : R) (num : nat) : Prop := (lo < hi)%R /\ 2 <= num /\ (Z.of_nat num < 2 ^ 31)%Z.
Definition bin_width (lo hi : R) (num : nat) : R := ((hi - lo) / INR (num - 1))%R.
Definition axes_ok (d : DistOptions R) : Prop :=
  axis_ok (d_energy_min d) (d_energy_max d) (d_energy_num d) /\ axis_ok (d_angle_min d) (d_angle_max d) (d_angle_num d) /\
  axis_ok (d_x_min d) (d_x_max d) (d_x_num d) /\ axis_ok (d_y_min d) (d_y_max d) (d_y_num d) /\ axis_ok (d_z_min d) (d_z_max d) (d_z_num d).
