(** * SpecGeoValid.v - which geometries the constructors accept *)
From Coq Require Import ZArith List Bool Arith Reals.
From Verif Require Import Num ModelTypes ModelConsts ModelGeometry NumR.
Import ListNotations.
Open Scope nat_scope.

Section GeoValid.
  Context {F : Type} {NF : Num F}.
  (** one of the six names or a number *)
  Definition unit_known (u : LengthUnit F) : Prop := u <> LU_other None.
  (** its value in metres *)
  Definition metres (u : LengthUnit F) : F :=
    match u with
    | LU_MICRON => cMICRON | LU_CM => cCM | LU_MM => cMM | LU_ANGSTROM => cANGSTROM | LU_NM => cNM
    | LU_other (Some v) => v | _ => nZ 1%Z
    end.
  (** all rows name the same number of species *)
  Definition rectangular (rows : list (list F)) : Prop := forall r r', In r rows -> In r' rows -> length r = length r'.
  (** depth of the boundary below the first [j] layers *)
  Definition depth (u : F) (thicknesses : list F) (j : nat) : F :=
    fold_left (fun d t => nadd d (nmul t u)) (firstn j thicknesses) (nZ 0%Z).
  (** layers that are built: those with a correction factor *)
  Definition layers_built (i : Mesh1DInput F) : nat := Nat.min (length (m1i_layer_thicknesses i)) (length (m1i_cks i)).
  Record consistent_layers (i : Mesh1DInput F) : Prop := {
    cl_unit : unit_known (m1i_length_unit i);
    cl_rows : rectangular (m1i_densities i);
    cl_count : length (m1i_layer_thicknesses i) = length (m1i_densities i);
    cl_some : 0 < layers_built i;
    cl_thick : forall j, j < layers_built i ->
      nlt (depth (metres (m1i_length_unit i)) (m1i_layer_thicknesses i) j) (depth (metres (m1i_length_unit i)) (m1i_layer_thicknesses i) (S j)) = true }.
  (** cells that are built: those with a correction factor *)
  Definition cells_built (i : Mesh2DInput F) : nat := Nat.min (length (m2i_triangles i)) (length (m2i_cks i)).
  Record consistent_mesh (i : Mesh2DInput F) : Prop := {
    cn_unit : unit_known (m2i_length_unit i);
    cn_rows : rectangular (m2i_densities i);
    cn_count : length (m2i_triangles i) = length (m2i_densities i);
    cn_vertices : forall j a b c, j < cells_built i -> nth_error (m2i_triangles i) j = Some (a, b, c) ->
      a < length (m2i_points i) /\ b < length (m2i_points i) /\ c < length (m2i_points i);
    cn_boundary : Forall (fun k => k < length (m2i_points i)) (m2i_boundary i) }.
End GeoValid.
(** over the real numbers: the unit times each thickness is positive *)
Definition thick_layers (i : Mesh1DInput R) : Prop :=
  forall j t, j < layers_built i -> nth_error (m1i_layer_thicknesses i) j = Some t -> (0 < t * metres (m1i_length_unit i))%R.
