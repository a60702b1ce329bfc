(** * SpecMesh.v - vocabulary for cells of a 2D mesh (C110). *)
From Coq Require Import Reals.
From Verif Require Import Num NumR ModelGeometry SpecR.
Open Scope R_scope.
(** The point lies in the cell's triangle, edges included. *)
Definition in_cell (c : Cell2D R) (x y : R) : Prop :=
  let t := c_triangle c in in_hull (t_x1 t) (t_y1 t) (t_x2 t) (t_y2 t) (t_x3 t) (t_y3 t) x y.
(** The triangle has an area. *)
Definition has_area (c : Cell2D R) : Prop :=
  let t := c_triangle c in (t_x1 t - t_x3 t) * (t_y2 t - t_y3 t) - (t_x2 t - t_x3 t) * (t_y1 t - t_y3 t) <> 0.
