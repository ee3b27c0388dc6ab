(** * tf2_sensor_msgs: doTransform of PointCloud2

    Model of tf2_sensor_msgs/include/tf2_sensor_msgs/tf2_sensor_msgs.h 66-94 and of
    tf2_sensor_msgs/src/tf2_sensor_msgs/tf2_sensor_msgs.py 44-60.

    The cloud is modelled down to its bytes.  A byte is a value of an arbitrary type [cell],
    and reading and writing a float is a pair of functions between 4 cells and a scalar: the
    theorems hold for every such pair, in particular for the little-endian binary32 encoding.
    sensor_msgs::PointCloud2Iterator (sensor_msgs/impl/point_cloud2_iterator.h) is not in
    /repo; its constructor, operator++, operator* and end() are modelled after its published
    source.  [&data.front()] of an empty vector is taken to be a pointer one may do
    arithmetic on, as on every implementation.  The fields' datatype and the endianness are
    ignored, as in the C++ code. *)
From Coq Require Import ZArith Bool String List Arith.
From Verif Require Import RosTime Scalar LinearMath GeomMsgs ForeignGeom.
Import ListNotations.
Local Open Scope nat_scope.

(** sensor_msgs/PointField *)
Record pfield := mkPfield { f_name : string; f_offset : nat; f_datatype : Z; f_count : Z }.
(** sensor_msgs/PointCloud2 *)
Record cloud (cell : Type) := mkCloud {
  c_header : header; c_height : Z; c_width : Z; c_fields : list pfield; c_bigendian : bool;
  c_point_step : nat; c_row_step : Z; c_data : list cell; c_dense : bool }.
Arguments mkCloud {cell} _ _ _ _ _ _ _ _ _.
Arguments c_header {cell} _.
Arguments c_height {cell} _.
Arguments c_width {cell} _.
Arguments c_fields {cell} _.
Arguments c_bigendian {cell} _.
Arguments c_point_step {cell} _.
Arguments c_row_step {cell} _.
Arguments c_data {cell} _.
Arguments c_dense {cell} _.
Definition set_cheader {cell} (h : header) (c : cloud cell) : cloud cell :=
  mkCloud h (c_height c) (c_width c) (c_fields c) (c_bigendian c) (c_point_step c) (c_row_step c) (c_data c) (c_dense c).
Definition set_cdata {cell} (d : list cell) (c : cloud cell) : cloud cell :=
  mkCloud (c_header c) (c_height c) (c_width c) (c_fields c) (c_bigendian c) (c_point_step c) (c_row_step c) d (c_dense c).

(** How a call ends: normally, by an exception (std::runtime_error with its text), or with
    undefined behaviour (an access outside the data, or a loop that never ends).  The memory
    an exception leaves behind is part of the outcome. *)
Inductive run (M : Type) := Done (m : M) | Threw (m : M) (what : string) | Undefined.
Arguments Done {M} _.
Arguments Threw {M} _ _.
Arguments Undefined {M}.

(** point_cloud2_iterator.h PointCloud2IteratorBase::set_field: the offset of the first field
    with the name (the r/g/b/a special case does not concern "x", "y", "z") *)
Fixpoint set_field (fields : list pfield) (name : string) : option nat :=
  match fields with
  | [] => None
  | f :: rest => if String.eqb (f_name f) name then Some (f_offset f) else set_field rest name
  end.

Section Cloud.
Context {cell : Type} {D F : Scalar}.
(** the conversion of a double argument to a float parameter *)
Context (narrow : D -> F).
(** a float in memory *)
Context (dec : list cell -> F) (enc : F -> list cell).

(** [*it] as an rvalue and as an lvalue, the pointer being [pos] bytes after the start of the
    data; no value outside the data *)
Definition load (d : list cell) (pos : nat) : option F :=
  if Nat.leb (pos + 4) (length d) then Some (dec (firstn 4 (skipn pos d))) else None.
Definition store (d : list cell) (pos : nat) (x : F) : option (list cell) :=
  if Nat.leb (pos + 4) (length d) then Some (firstn pos d ++ enc x ++ skipn (pos + 4) d) else None.

Section Run.
Context {M : Type} (p_in p_out : ref M (cloud cell)).
Definition r_cheader (r : ref M (cloud cell)) := member r c_header set_cheader.
Definition r_cdata (r : ref M (cloud cell)) := member r c_data set_cdata.

(** tf2_sensor_msgs.h 87-92, the loop.  The six iterators are byte positions; [last] is
    x_in.end(); the input iterators advance by [s_in], the output iterators by [s_out].
    Fuel: a loop that has not ended after more rounds than there are bytes never ends, or is
    past the end of the data. *)
Fixpoint cloud_loop (fuel : nat) (t : xform F) (s_in s_out last : nat)
  (x_in y_in z_in x_out y_out z_out : nat) (m : M) : run M :=
  match fuel with
  | O => Undefined
  | Datatypes.S fuel =>
    if Nat.eqb x_in last then Done m else
    match load (c_data (rd p_in m)) x_in, load (c_data (rd p_in m)) y_in, load (c_data (rd p_in m)) z_in with
    | Some x, Some y, Some z =>
      let point := eig_apply t (V3 x y z) in
      match store (c_data (rd p_out m)) x_out (vx point) with
      | None => Undefined
      | Some d =>
        let m := wr (r_cdata p_out) d m in
        match store (c_data (rd p_out m)) y_out (vy point) with
        | None => Undefined
        | Some d =>
          let m := wr (r_cdata p_out) d m in
          match store (c_data (rd p_out m)) z_out (vz point) with
          | None => Undefined
          | Some d =>
            let m := wr (r_cdata p_out) d m in
            cloud_loop fuel t s_in s_out last (x_in + s_in) (y_in + s_in) (z_in + s_in)
              (x_out + s_out) (y_out + s_out) (z_out + s_out) m
          end
        end
      end
    | _, _, _ => Undefined
    end
  end.

Definition no_field (name : string) : string := ("Field " ++ name ++ " does not exist")%string.
(** tf2_sensor_msgs.h 69-93 doTransform(PointCloud2) *)
Definition doTransform_PointCloud2 (t_in : gtstamped D) (m : M) : run M :=
  (* 71-72 *)
  let m := wr p_out (rd p_in m) m in
  let m := wr (r_cheader p_out) (t_header t_in) m in
  (* 73-76: doubles narrowed to float, quaternion not normalised *)
  let tr := translation (t_transform t_in) in let q := g_rotation (t_transform t_in) in
  let t := eig_compose (V3 (narrow (gx tr)) (narrow (gy tr)) (narrow (gz tr)))
             (Q4 (narrow (gqx q)) (narrow (gqy q)) (narrow (gqz q)) (narrow (gqw q))) in
  (* 78-84: construction of the iterators, in order *)
  let fi := c_fields (rd p_in m) in let fo := c_fields (rd p_out m) in
  match set_field fi "x" with None => Threw m (no_field "x") | Some xi =>
  match set_field fi "y" with None => Threw m (no_field "y") | Some yi =>
  match set_field fi "z" with None => Threw m (no_field "z") | Some zi =>
  match set_field fo "x" with None => Threw m (no_field "x") | Some xo =>
  match set_field fo "y" with None => Threw m (no_field "y") | Some yo =>
  match set_field fo "z" with None => Threw m (no_field "z") | Some zo =>
    let size := length (c_data (rd p_in m)) in
    cloud_loop (Datatypes.S size) t (c_point_step (rd p_in m)) (c_point_step (rd p_out m)) (size + xi)
      xi yi zi xo yo zo m
  end end end end end end.
End Run.
End Cloud.

(** ** The Python function *)
(** What read_points yields of a cloud: one tuple of values per point, in the order of the
    fields' offsets (sensor_msgs/point_cloud2.py _get_struct_fmt sorts by offset), and the
    names of the values. *)
Record pycloud (S : Scalar) := mkPycloud {
  pc_header : header; pc_height : Z; pc_width : Z; pc_names : list string; pc_points : list (list S) }.
Arguments mkPycloud {S} _ _ _ _ _.
Arguments pc_header {S} _.
Arguments pc_height {S} _.
Arguments pc_width {S} _.
Arguments pc_names {S} _.
Arguments pc_points {S} _.
Section Py.
Context {S : Scalar}.
(** tf2_sensor_msgs.py 55-57: the loop body; fewer than three values: IndexError *)
Definition py_point (t_kdl : xform S) (p_in : list S) : option (list S) :=
  match p_in with
  | a :: b :: c :: rest =>
      let p_out := kdl_apply t_kdl (V3 a b c) in Some (vx p_out :: vy p_out :: vz p_out :: rest)
  | _ => None
  end.
Fixpoint py_points (t_kdl : xform S) (l : list (list S)) : option (list (list S)) :=
  match l with
  | [] => Some []
  | p :: l => match py_point t_kdl p, py_points t_kdl l with Some q, Some r => Some (q :: r) | _, _ => None end
  end.
(** tf2_sensor_msgs.py 52-59 do_transform_cloud; create_cloud makes an unorganised cloud
    (height 1, width the number of points) *)
Definition py_do_transform_cloud (c : pycloud S) (tf : gtstamped S) : option (pycloud S) :=
  match py_points (transformToKDL tf) (pc_points c) with
  | None => None
  | Some pts => Some (mkPycloud (t_header tf) 1 (Z.of_nat (length pts)) (pc_names c) pts)
  end.
End Py.
