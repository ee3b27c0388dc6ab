(** * Specification vocabulary for point clouds *)
From Coq Require Import ZArith Bool String List Arith.
From Verif Require Import RosTime Scalar LinearMath GeomMsgs ForeignGeom SensorMsgs.
Import ListNotations.
Local Open Scope nat_scope.

Section Spec.
Context {cell : Type}.

(** [o] is the offset of the first field called [name]. *)
Definition has_field (c : cloud cell) (name : string) (o : nat) : Prop :=
  exists before f after, c_fields c = before ++ f :: after /\ f_name f = name /\ f_offset f = o /\
    forall g, In g before -> f_name g <> name.

(** [c] holds [n] points, with "x", "y" and "z" at offsets [ox], [oy] and [oz] of each point: the
    data are n points of point_step bytes, and the three 4-byte coordinates lie inside a point and
    do not overlap. *)
Record layout (c : cloud cell) (n ox oy oz : nat) : Prop := {
  lay_x : has_field c "x" ox; lay_y : has_field c "y" oy; lay_z : has_field c "z" oz;
  lay_size : length (c_data c) = n * c_point_step c;
  lay_in : ox + 4 <= c_point_step c /\ oy + 4 <= c_point_step c /\ oz + 4 <= c_point_step c;
  lay_apart : (ox + 4 <= oy \/ oy + 4 <= ox) /\ (ox + 4 <= oz \/ oz + 4 <= ox) /\ (oy + 4 <= oz \/ oz + 4 <= oy) }.

(** the four bytes of point [k] at offset [o] *)
Definition bytes (c : cloud cell) (k o : nat) : list cell := firstn 4 (skipn (k * c_point_step c + o) (c_data c)).

(** byte number [j] of the data belongs to one of the three coordinates of some point *)
Definition is_coordinate (c : cloud cell) (ox oy oz j : nat) : Prop :=
  let r := j mod c_point_step c in (ox <= r < ox + 4) \/ (oy <= r < oy + 4) \/ (oz <= r < oz + 4).

(** two clouds that differ at most in their header and their data *)
Definition same_shape (a b : cloud cell) : Prop :=
  c_height a = c_height b /\ c_width a = c_width b /\ c_fields a = c_fields b /\ c_bigendian a = c_bigendian b /\
  c_point_step a = c_point_step b /\ c_row_step a = c_row_step b /\ c_dense a = c_dense b /\
  length (c_data a) = length (c_data b).
End Spec.
