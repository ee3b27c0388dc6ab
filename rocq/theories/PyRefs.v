(** * Reference counts in the Python bindings

    Model of the object handling of tf2_py/src/tf2_py.cpp and python_compat.h: which references
    are taken, given back and kept, and what happens to arguments that are not ROS messages.

    Simplifications: an instance's reference to its own class and the parts of a rospy.Time are
    not counted; a subclass of a message class is taken for the class itself; types named in
    C++ do not fail to be found; to_sec() exists on a rospy.Time and on nothing else; no
    allocation fails; interned small objects (the empty tuple) are made anew. *)
From Coq Require Import ZArith Bool List String.
From Verif Require Import RosTime Scalar LinearMath Cache BufferCore Instances PyTime.
Import ListNotations.
Open Scope string_scope.
Open Scope list_scope.
Open Scope nat_scope.

Section Refs.
Context {S : Scalar}.

(** Objects every interpreter has by name: None, the constants 0.0, '' and 0 that fresh messages
    hold, the modules rospy and geometry_msgs.msg, and their classes. *)
Inductive glob := GNone | GZero | GEmpty | GInt0 | GRospy | GGeometry | GTimeClass | GStampedClass | GVectorClass | GQuaternionClass.
Definition glob_eqb (a b : glob) : bool :=
  match a, b with
  | GNone, GNone | GZero, GZero | GEmpty, GEmpty | GInt0, GInt0 | GRospy, GRospy | GGeometry, GGeometry
  | GTimeClass, GTimeClass | GStampedClass, GStampedClass | GVectorClass, GVectorClass | GQuaternionClass, GQuaternionClass => true
  | _, _ => false
  end.
(** where an object lies: a named one, one that existed before the call, the k-th made in it *)
Inductive addr := Glob (g : glob) | Old (n : nat) | New (k : nat).
Definition addr_eqb (a b : addr) : bool :=
  match a, b with
  | Glob x, Glob y => glob_eqb x y
  | Old x, Old y => Nat.eqb x y
  | New x, New y => Nat.eqb x y
  | _, _ => false
  end.

(** what an object is, as far as the bindings look *)
Inductive data := DNum (x : S) | DText (t : string) | DTime (t : time) | DSec (d : f64) | DOther.
(** an attribute: a reference the object holds, or one computed anew each time it is asked for
    (a property) *)
Inductive slot := Held (a : addr) | Made (d : data).
Record obj := mkObj { o_refs : nat; o_class : option addr; o_slots : list (string * slot); o_data : data }.
Definition with_refs (o : obj) (n : nat) : obj := mkObj n (o_class o) (o_slots o) (o_data o).

Record globals := mkGlobals { g_none : option obj; g_zero : option obj; g_empty : option obj; g_int0 : option obj; g_rospy : option obj;
  g_geometry : option obj; g_time : option obj; g_stamped : option obj; g_vector : option obj; g_quaternion : option obj }.
(** The interpreter: the objects, a bound on the number of the old ones, the error indicator
    (PyErr_Occurred). *)
Record heap := mkHeap { h_glob : globals; h_old : nat -> option obj; h_size : nat; h_new : list (option obj); h_err : bool }.

Definition get_glob (G : globals) (g : glob) : option obj :=
  match g with
  | GNone => g_none G | GZero => g_zero G | GEmpty => g_empty G | GInt0 => g_int0 G | GRospy => g_rospy G | GGeometry => g_geometry G
  | GTimeClass => g_time G | GStampedClass => g_stamped G | GVectorClass => g_vector G | GQuaternionClass => g_quaternion G
  end.
Definition put_glob (G : globals) (g : glob) (o : option obj) : globals :=
  match G with mkGlobals a b c d e f i j k l =>
  match g with
  | GNone => mkGlobals o b c d e f i j k l | GZero => mkGlobals a o c d e f i j k l | GEmpty => mkGlobals a b o d e f i j k l
  | GInt0 => mkGlobals a b c o e f i j k l | GRospy => mkGlobals a b c d o f i j k l | GGeometry => mkGlobals a b c d e o i j k l
  | GTimeClass => mkGlobals a b c d e f o j k l | GStampedClass => mkGlobals a b c d e f i o k l
  | GVectorClass => mkGlobals a b c d e f i j o l | GQuaternionClass => mkGlobals a b c d e f i j k o
  end end.
Fixpoint put_nth (l : list (option obj)) (k : nat) (o : option obj) : list (option obj) :=
  match l, k with [], _ => [] | _ :: l, 0 => o :: l | x :: l, Datatypes.S k => x :: put_nth l k o end.

(** the object at an address; [None]: there is none (any more) *)
Definition get (h : heap) (a : addr) : option obj :=
  match a with
  | Glob g => get_glob (h_glob h) g
  | Old n => h_old h n
  | New k => nth k (h_new h) None
  end.
Definition put (h : heap) (a : addr) (o : option obj) : heap :=
  match a with
  | Glob g => mkHeap (put_glob (h_glob h) g o) (h_old h) (h_size h) (h_new h) (h_err h)
  | Old n => mkHeap (h_glob h) (fun m => if Nat.eqb m n then o else h_old h m) (h_size h) (h_new h) (h_err h)
  | New k => mkHeap (h_glob h) (h_old h) (h_size h) (put_nth (h_new h) k o) (h_err h)
  end.
Definition set_err (h : heap) (e : bool) : heap := mkHeap (h_glob h) (h_old h) (h_size h) (h_new h) e.
(** a new object, with one reference, the caller's *)
Definition alloc (h : heap) (c : option addr) (sl : list (string * slot)) (d : data) : heap * addr :=
  (mkHeap (h_glob h) (h_old h) (h_size h) (h_new h ++ [Some (mkObj 1 c sl d)]) (h_err h), New (List.length (h_new h))).

(** Using an object that is not there any more, or a null pointer, ends the process: [None]. *)
Definition incref (h : heap) (a : addr) : option heap :=
  match get h a with None => None | Some o => Some (put h a (Some (with_refs o (Datatypes.S (o_refs o))))) end.
(** Py_DECREF: the last reference frees the object, which gives back those it holds.  The number
    bounds the depth of nesting; every level frees an object first, so the number of objects is
    enough. *)
Fixpoint drop (n : nat) (h : heap) (a : addr) : option heap :=
  match n with
  | 0 => None
  | Datatypes.S n =>
      match get h a with
      | None => None
      | Some o =>
          match o_refs o with
          | 0 => None
          | 1 => (fix all (h : heap) (l : list (string * slot)) : option heap :=
                    match l with
                    | [] => Some h
                    | (_, Held v) :: l => match drop n h v with Some h => all h l | None => None end
                    | (_, Made _) :: l => all h l
                    end) (put h a None) (o_slots o)
          | Datatypes.S m => Some (put h a (Some (with_refs o m)))
          end
      end
  end.
Definition decref (h : heap) (a : addr) : option heap := drop (Datatypes.S (List.length (h_new h) + h_size h)) h a.

(** a piece of C++: it ends the process, or changes the interpreter and yields a value *)
Definition code (A : Type) := heap -> option (heap * A).
Definition ret {A} (a : A) : code A := fun h => Some (h, a).
Definition die {A} : code A := fun _ => None.
Definition bind {A B} (c : code A) (f : A -> code B) : code B := fun h => match c h with None => None | Some (h', a) => f a h' end.
Notation "x <~ c ; k" := (bind c (fun x => k)) (at level 100, c at next level, right associativity).
Notation "c ;> k" := (bind c (fun _ : unit => k)) (at level 100, right associativity).
Definition DECREF (a : addr) : code unit := fun h => match decref h a with Some h => Some (h, tt) | None => None end.
Definition INCREF (a : addr) : code unit := fun h => match incref h a with Some h => Some (h, tt) | None => None end.
Definition XDECREF (o : option addr) : code unit := match o with Some a => DECREF a | None => ret tt end.
Definition ERR (e : bool) : code unit := fun h => Some (set_err h e, tt).
Definition NEW (c : option addr) (sl : list (string * slot)) (d : data) : code addr := fun h => Some (alloc h c sl d).
Definition DATA (a : addr) : code data := fun h => match get h a with Some o => Some (h, o_data o) | None => None end.

Fixpoint find_slot (n : string) (l : list (string * slot)) : option slot :=
  match l with [] => None | (m, s) :: l => if String.eqb m n then Some s else find_slot n l end.
Fixpoint set_slot (n : string) (v : addr) (l : list (string * slot)) : list (string * slot) :=
  match l with [] => [(n, Held v)] | (m, s) :: l => if String.eqb m n then (m, Held v) :: l else (m, s) :: set_slot n v l end.

(** PyObject_GetAttrString: a reference of the caller's own, or null and AttributeError *)
Definition GetAttr (o : option addr) (name : string) : code (option addr) := fun h =>
  match o with
  | None => None
  | Some a =>
      match get h a with
      | None => None
      | Some ob =>
          match find_slot name (o_slots ob) with
          | None => Some (set_err h true, None)
          | Some (Held v) => match incref h v with Some h' => Some (h', Some v) | None => None end
          | Some (Made d) => let (h', v) := alloc h None [] d in Some (h', Some v)
          end
      end
  end.
(** PyObject_HasAttrString: errors are cleared *)
Definition HasAttr (o : option addr) (name : string) : code bool :=
  r <~ GetAttr o name ; match r with Some v => DECREF v ;> ret true | None => ERR false ;> ret false end.
(** PyObject_SetAttrString with a value that exists *)
Definition SetAttr (a : addr) (name : string) (v : addr) : code unit := fun h =>
  match get h a with
  | None => None
  | Some ob =>
      match incref h v with
      | None => None
      | Some h1 =>
          match get h1 a with
          | None => None
          | Some ob1 =>
              let h2 := put h1 a (Some (mkObj (o_refs ob1) (o_class ob1) (set_slot name v (o_slots ob1)) (o_data ob1))) in
              match find_slot name (o_slots ob1) with
              | Some (Held old) => match decref h2 old with Some h3 => Some (h3, tt) | None => None end
              | _ => Some (h2, tt)
              end
          end
      end
  end.

(** python_compat.h 48-53 pythonBorrowAttrString *)
Definition borrow (o : option addr) (name : string) : code (option addr) :=
  r <~ GetAttr o name ; XDECREF r ;> ret r.
(** python_compat.h 26-38 stringFromPython: with anything but a string the pointer and the size
    it then reads are not set *)
Definition text (o : option addr) : code string :=
  match o with
  | None => die
  | Some a => d <~ DATA a ; match d with DText t => ret t | _ => die end
  end.
(** PyFloat_AsDouble: -1.0 and an error for null and for anything that is not a number *)
Definition num (o : option addr) : code S :=
  match o with
  | None => ERR true ;> ret (sopp sone)
  | Some a => d <~ DATA a ; match d with DNum x => ret x | _ => ERR true ;> ret (sopp sone) end
  end.

(** What a call gives back: an object (with the error indicator as it is), an exception, or the
    C++ exception that leaves the module. *)
Inductive result := Returned (a : addr) | Raised | Terminated.

(** tf2_py.cpp 151-162 rostime_converter; [None] = 0 with TypeError *)
Definition stamp_of (o : option addr) : code (option (res time)) :=
  match o with
  | None => ERR true ;> ret None
  | Some a =>
      d <~ DATA a ;
      match d with
      | DTime t =>
          tsr <~ NEW None [] (DSec (to_sec t)) ;
          d' <~ DATA tsr ;
          match d' with DSec s => DECREF tsr ;> ret (Some (from_sec s)) | _ => die end
      | _ => ERR true ;> ret None
      end
  end.

Fixpoint has_all (o : option addr) (l : list string) : code bool :=
  match l with [] => ret true | n :: l => b <~ HasAttr o n ; if b then has_all o l else ret false end.
(** 396-407 checkTranslationType, 409-421 checkRotationType: the reference to the class, and a
    warning if the argument is of another class; [strict]: warnings are errors *)
Definition check_type (strict : bool) (cls : string) (names : list string) (o : option addr) : code bool :=
  c <~ GetAttr (Some (Glob GGeometry)) cls ;
  match o, c with
  | Some a, Some ty =>
      is <~ (fun h => match get h a with Some ob => Some (h, match o_class ob with Some k => addr_eqb k ty | None => false end) | None => None end) ;
      ok <~ has_all o names ;
      (if (negb is && strict)%bool then ERR true else ret tt) ;> ret ok
  | _, _ => die
  end.

(** 423-464 setTransform, 466-507 setTransformStatic: the transform passed to the C++ buffer, if
    it gets that far, and what Python gets.  With an error pending the interpreter does not
    take the None it is given. *)
Definition read_transform (strict : bool) (p : addr) : code (option (tmsg S) * result) :=
  header <~ borrow (Some p) "header" ;
  c <~ borrow (Some p) "child_frame_id" ; child <~ text c ;
  f <~ borrow header "frame_id" ; frame <~ text f ;
  st <~ borrow header "stamp" ; t <~ stamp_of st ;
  match t with
  | None => ret (None, Raised)
  | Some (Throw _ _) => ret (None, Terminated)
  | Some UB => die
  | Some (Ok t) =>
      mtransform <~ borrow (Some p) "transform" ;
      translation <~ borrow mtransform "translation" ;
      ok <~ check_type strict "Vector3" ["x"; "y"; "z"] translation ;
      if ok : bool then
        o <~ borrow translation "x" ; x <~ num o ;
        o <~ borrow translation "y" ; y <~ num o ;
        o <~ borrow translation "z" ; z <~ num o ;
        rotation <~ borrow mtransform "rotation" ;
        ok <~ check_type strict "Quaternion" ["w"; "x"; "y"; "z"] rotation ;
        if ok : bool then
          o <~ borrow rotation "x" ; a <~ num o ;
          o <~ borrow rotation "y" ; b <~ num o ;
          o <~ borrow rotation "z" ; c <~ num o ;
          o <~ borrow rotation "w" ; d <~ num o ;
          INCREF (Glob GNone) ;>
          ret (Some (mkTmsg t frame child (V3 x y z) (Q4 a b c d)), Returned (Glob GNone))
        else ERR true ;> ret (None, Raised)
      else ERR true ;> ret (None, Raised)
  end.
Definition set_transform (strict is_static : bool) (p : addr) (authority : string) (s : core S) (h : heap) : option (heap * core S * result) :=
  match read_transform strict p h with
  | None => None
  | Some (h', (None, r)) => Some (h', s, r)
  | Some (h', (Some m, r)) =>
      match setTransform s m authority is_static with
      | (s', Ok _) => Some (h', s', if h_err h' then Raised else r)
      | (s', Throw _ _) => Some (h', s', Terminated)
      | (s', UB) => None
      end
  end.

(** geometry_msgs.msg.TransformStamped(): the fields of a fresh message hold the constants 0,
    0.0 and '' (generated message classes) *)
Fixpoint times_incref (n : nat) (a : addr) : code unit :=
  match n with 0 => ret tt | Datatypes.S n => INCREF a ;> times_incref n a end.
Definition new_stamped : code addr :=
  times_incref 1 (Glob GInt0) ;> times_incref 2 (Glob GEmpty) ;> times_incref 7 (Glob GZero) ;>
  st <~ NEW (Some (Glob GTimeClass)) [] (DTime 0%Z) ;
  he <~ NEW None [("seq", Held (Glob GInt0)); ("stamp", Held st); ("frame_id", Held (Glob GEmpty))] DOther ;
  tr <~ NEW (Some (Glob GVectorClass)) [("x", Held (Glob GZero)); ("y", Held (Glob GZero)); ("z", Held (Glob GZero))] DOther ;
  ro <~ NEW (Some (Glob GQuaternionClass)) [("x", Held (Glob GZero)); ("y", Held (Glob GZero)); ("z", Held (Glob GZero)); ("w", Held (Glob GZero))] DOther ;
  tf <~ NEW None [("translation", Held tr); ("rotation", Held ro)] DOther ;
  NEW (Some (Glob GStampedClass)) [("header", Held he); ("child_frame_id", Held (Glob GEmpty)); ("transform", Held tf)] DOther.

(** an attribute that is there *)
Definition attr (a : addr) (name : string) : code addr :=
  r <~ GetAttr (Some a) name ; match r with Some v => ret v | None => die end.
(** make a leaf, store it, give the own reference back: 111-113, 121-123, 125-144 *)
Definition store (a : addr) (name : string) (d : data) : code unit :=
  v <~ NEW None [] d ; SetAttr a name v ;> DECREF v.

(** 71-149 transform_converter.  A stamp from 2^31 s on makes rospy.Time raise; the null pointer
    is then given back (105-108). *)
Definition transform_converter (m : tmsg S) : code addr :=
  pclass <~ attr (Glob GGeometry) "TransformStamped" ;
  pargs <~ NEW None [] DOther ;
  pinst <~ new_stamped ;
  DECREF pclass ;> DECREF pargs ;>
  rospy_time <~ attr (Glob GRospy) "Time" ;
  sec <~ NEW None [] DOther ; nsec <~ NEW None [] DOther ;
  args <~ NEW None [("0", Held sec); ("1", Held nsec)] DOther ;
  if (tm_stamp m <? 2 ^ 31 * 10 ^ 9)%Z then
    time_obj <~ NEW (Some (Glob GTimeClass)) [] (DTime (tm_stamp m)) ;
    DECREF args ;> DECREF rospy_time ;>
    pheader <~ attr pinst "header" ;
    SetAttr pheader "stamp" time_obj ;> DECREF time_obj ;>
    store pheader "frame_id" (DText (tm_frame m)) ;> DECREF pheader ;>
    ptransform <~ attr pinst "transform" ;
    ptranslation <~ attr ptransform "translation" ;
    protation <~ attr ptransform "rotation" ;
    DECREF ptransform ;>
    store pinst "child_frame_id" (DText (tm_child m)) ;>
    store ptranslation "x" (DNum (vx (tm_trans m))) ;>
    store ptranslation "y" (DNum (vy (tm_trans m))) ;>
    store ptranslation "z" (DNum (vz (tm_trans m))) ;>
    DECREF ptranslation ;>
    store protation "x" (DNum (qx (tm_rot m))) ;>
    store protation "y" (DNum (qy (tm_rot m))) ;>
    store protation "z" (DNum (qz (tm_rot m))) ;>
    store protation "w" (DNum (qw (tm_rot m))) ;>
    DECREF protation ;>
    ret pinst
  else die.

(** 250-258 asListOfStrings: PyList_SetItem takes the reference over.  The items are named by
    their position. *)
Fixpoint make_all (l : list string) : code (list (string * slot)) :=
  match l with
  | [] => ret []
  | t :: l => v <~ NEW None [] (DText t) ; sl <~ make_all l ; ret (("item", Held v) :: sl)
  end.
Definition list_of_strings (l : list string) : code addr := sl <~ make_all l ; NEW None sl DOther.
End Refs.
