(** * PropertiesValid.v - C117: exactly which input files are accepted *)
From Coq Require Import ZArith List Bool Arith Lia Floats.SpecFloat.
From Verif Require Import Num ModelTypes ModelGeometry ModelMaterial ModelInput ProofsBase NumSF SpecValid ProofsValid Toy PropertiesInput.
Import ListNotations.
Open Scope nat_scope.

(** ** C117 *)
Theorem C117_accepted_exactly_when_consistent :
  forall {F} {NF : Num F} (ft : Features F) normal_ok (inp : InputData F) rng n,
    (exists result n', input ft normal_ok inp rng n = Ok (result, n')) <-> consistent_file ft normal_ok inp.
Proof. intros F NF. exact input_iff. Qed.
Print Assumptions C117_accepted_exactly_when_consistent.
(** acceptance does not depend on the random numbers *)
Theorem C117_same_for_every_stream :
  forall {F} {NF : Num F} (ft : Features F) normal_ok (inp : InputData F) rng n rng' k,
    (exists result n', input ft normal_ok inp rng n = Ok (result, n')) -> exists result n', input ft normal_ok inp rng' k = Ok (result, n').
Proof. intros F NF ft nok inp rng n rng' k H. apply (C117_accepted_exactly_when_consistent ft nok inp). apply (C117_accepted_exactly_when_consistent ft nok inp rng n). exact H. Qed.
Print Assumptions C117_same_for_every_stream.
(** a consistent file, and one that is not: Newton's method for a Lennard-Jones potential *)
Example C117_consistent : consistent_file toy_features (fun _ => true) (toy_file KR_C MENDENHALL_WELLER DEFAULTNEWTON false LU_ANGSTROM).
Proof. apply (C117_accepted_exactly_when_consistent _ _ _ toy_rng 0). do 2 eexists. vm_compute. reflexivity. Qed.
Example C117_inconsistent : ~ consistent_file toy_features (fun _ => true) (toy_file (LENNARD_JONES_12_6 (nZ 1%Z) (nZ 1%Z)) MENDENHALL_WELLER DEFAULTNEWTON false LU_ANGSTROM).
Proof.
  intro H. destruct H as (Ho & _). destruct (co_pairs _ _ Ho 0 0 (LENNARD_JONES_12_6 (nZ 1%Z) (nZ 1%Z)) MENDENHALL_WELLER DEFAULTNEWTON) as (_ & []); eexists; split; reflexivity.
Qed.
