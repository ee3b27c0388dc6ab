(** * tf2_py: the Python bindings of BufferCore

    Model of tf2_py/src/tf2_py.cpp.  Frame ids and the numbers of a transform pass unchanged
    (stringFromPython, PyFloat_AsDouble); times go through [py_time].  Arguments that are not
    messages and reference counts are in PyRefs.v.  Not modelled: the absent tp_dealloc, ids with
    embedded NUL bytes. *)
From Coq Require Import ZArith Bool List String.
From Verif Require Import RosTime Scalar LinearMath Cache BufferCore PyTime.
Import ListNotations.
Open Scope Z_scope.

(** What a Python caller sees: a value, an exception from tf2 (by class), a TypeError raised by
    rospy, or the end of the process: a C++ exception leaving the extension module
    (std::terminate), or undefined behaviour. *)
Inductive py (A : Type) :=
| PyOk (a : A)
| PyRaise (c : exn_class) (e : etext)
| PyTypeError
| PyAbort
| PyCrash.
Arguments PyOk {A} a.
Arguments PyRaise {A} c e.
Arguments PyTypeError {A}.
Arguments PyAbort {A}.
Arguments PyCrash {A}.
Definition pbind {A B} (r : py A) (f : A -> py B) : py B :=
  match r with PyOk a => f a | PyRaise c e => PyRaise c e | PyTypeError => PyTypeError | PyAbort => PyAbort | PyCrash => PyCrash end.

(** A C++ call outside WRAP: any exception leaves the module. *)
Definition bare {A} (r : res A) : py A :=
  match r with Ok a => PyOk a | Throw _ _ => PyAbort | UB => PyCrash end.
(** tf2_py.cpp 10-45 WRAP: the catch clauses name five classes and their base
    tf2::TransformException; std::runtime_error is not one of them *)
Definition wrap {A} (r : res A) : py A :=
  match r with
  | Ok a => PyOk a
  | Throw RuntimeError _ => PyAbort
  | Throw c e => PyRaise c e
  | UB => PyCrash
  end.

(** rospy.Time(secs, nsecs) built from Py_BuildValue("ii", sec, nsec), 102-104 and 297-300: a
    uint32 read as an int is negative from 2^31 on, and rospy.Time refuses negative seconds *)
Definition rospy_time (t : time) : option time := if t <? 2 ^ 31 * 10 ^ 9 then Some t else None.

Section Bindings.
Context {S : Scalar}.
Notation core := (core S).
Notation tmsg := (tmsg S).

(** tf2_py.cpp 177-189 BufferCore_init: the default cache time is 10 s
    (buffer_core.h 92 DEFAULT_CACHE_TIME); [ct] is the Duration after its own conversion *)
Definition py_init (ct : option duration) : core := init_core (match ct with Some d => d | None => 10 * 10 ^ 9 end).

(** 151-162 rostime_converter *)
Definition arg_time (t : time) : py time := bare (py_time t).

(** 423-464 setTransform and 466-507 setTransformStatic: what BufferCore::setTransform answers is
    dropped, Python gets None *)
Definition py_set (is_static : bool) (s : core) (m : tmsg) (authority : string) : core * py unit :=
  match arg_time (tm_stamp m) with
  | PyOk t =>
      let m' := mkTmsg t (tm_frame m) (tm_child m) (tm_trans m) (tm_rot m) in
      let (s', r) := setTransform s m' authority is_static in
      (s', pbind (bare r) (fun _ => PyOk tt))
  | PyRaise c e => (s, PyRaise c e)
  | PyTypeError => (s, PyTypeError)
  | PyAbort => (s, PyAbort)
  | PyCrash => (s, PyCrash)
  end.

(** 213-226 canTransformCore: the pair (possible, error message) *)
Definition py_can (s : core) (target_frame source_frame : string) (t : time) : py (bool * errp) :=
  pbind (arg_time t) (fun t' => bare (canTransform s target_frame source_frame t' (Some EEmpty))).
(** 228-248 canTransformFullCore *)
Definition py_can_full (s : core) (target_frame : string) (target_time : time) (source_frame : string) (source_time : time)
    (fixed_frame : string) : py (bool * errp) :=
  pbind (arg_time target_time) (fun t1 => pbind (arg_time source_time) (fun t2 =>
  bare (canTransformFixed s target_frame t1 source_frame t2 fixed_frame (Some EEmpty)))).

(** 71-149 transform_converter: without a rospy time object the next Py_DECREF is of a null pointer *)
Definition to_python (m : tmsg) : py tmsg :=
  match rospy_time (tm_stamp m) with Some _ => PyOk m | None => PyCrash end.
(** 308-326 lookupTransformCore *)
Definition py_lookup (s : core) (target_frame source_frame : string) (t : time) : py tmsg :=
  pbind (arg_time t) (fun t' => pbind (wrap (lookupTransform s target_frame source_frame t')) to_python).
(** 328-350 lookupTransformFullCore *)
Definition py_lookup_full (s : core) (target_frame : string) (target_time : time) (source_frame : string) (source_time : time)
    (fixed_frame : string) : py tmsg :=
  pbind (arg_time target_time) (fun t1 => pbind (arg_time source_time) (fun t2 =>
  pbind (wrap (lookupTransformFixed s target_frame t1 source_frame t2 fixed_frame)) to_python)).

(** 282-306 getLatestCommonTime *)
Definition py_latest (s : core) (target_frame source_frame : string) : py time :=
  pbind (wrap (validateFrameId s "get_latest_common_time" target_frame)) (fun target =>
  pbind (wrap (validateFrameId s "get_latest_common_time" source_frame)) (fun source =>
  pbind (bare (getLatestCommonTime s target source (Some EEmpty))) (fun r =>
  match r with
  | (NO_ERROR, Some t, _) => match rospy_time t with Some t' => PyOk t' | None => PyTypeError end
  | (NO_ERROR, None, _) => PyCrash
  | (_, _, err) => PyRaise TransformException (match err with Some e => e | None => EEmpty end)
  end))).

(** 260-280 _chain *)
Definition py_chain (s : core) (target_frame : string) (target_time : time) (source_frame : string) (source_time : time)
    (fixed_frame : string) : py (list string) :=
  pbind (arg_time target_time) (fun t1 => pbind (arg_time source_time) (fun t2 =>
  wrap (chainAsVector s target_frame t1 source_frame t2 fixed_frame))).
End Bindings.
