(** * Specification vocabulary for buffers

    Histories of operations, and what a buffer knows about each frame *name*. *)
From Coq Require Import ZArith Bool List String.
From Verif Require Import RosTime Scalar LinearMath Cache BufferCore.
Import ListNotations.
Open Scope Z_scope.

Section Spec.
Context {S : Scalar}.

(** State-changing calls of the public API. *)
Inductive core_op :=
| OSet (m : tmsg S) (authority : string) (is_static : bool)
| OClear.

Definition step (s : core S) (o : core_op) : core S :=
  match o with
  | OSet m a st => fst (setTransform s m a st)
  | OClear => clear s
  end.
Definition run (s : core S) (ops : list core_op) : core S := fold_left step ops s.

(** A message whose stamp is a ros::Time. *)
Definition op_ok (o : core_op) : Prop :=
  match o with OSet m _ _ => valid_time (tm_stamp m) | OClear => True end.

(** States a BufferCore constructed with a non-negative cache time can get into. *)
Definition reachable (s : core S) : Prop :=
  exists ct ops, 0 <= ct < dur_bound /\ Forall op_ok ops /\ s = run (init_core ct) ops.

(** ** What one call does to one frame, by name *)

(** The message is refused before anything is touched (decided on the stripped message);
    C10 spells out the condition. *)
Definition bad_message (m : tmsg S) : bool := setTransform_error m.

(** A message setTransform must refuse, spelled out: after stripping one leading slash of the
    names, child and parent coincide or one is empty; or one of the seven numbers is NaN; or
    the squared quaternion norm is not within 1/100 of 1. *)
Definition malformed (m : tmsg S) : Prop :=
  stripSlash (tm_child m) = stripSlash (tm_frame m) \/
  stripSlash (tm_child m) = EmptyString \/ stripSlash (tm_frame m) = EmptyString \/
  Exists (fun x => sisnan x = true)
    [vx (tm_trans m); vy (tm_trans m); vz (tm_trans m);
     qx (tm_rot m); qy (tm_rot m); qz (tm_rot m); qw (tm_rot m)] \/
  (let (x, y, z, w) := tm_rot m in
   sltb (sabs (w * w + x * x + y * y + z * z - slit 1 1)%S) (slit 1 100)) = false.

(** The sample a (stripped) message carries. *)
Definition sample_of (m : tmsg S) : storage S string :=
  {| st_rot := tm_rot m; st_trans := tm_trans m; st_stamp := tm_stamp m;
     st_frame := tm_frame m; st_child := tm_child m |}.

(** The effect of one call on the history of the frame called [n]: the first accepted message
    for [n] decides between static and time-varying, later ones are offered to it. *)
Definition frame_step (ct : duration) (n : string) (h : option (cache S string)) (o : core_op)
  : option (cache S string) :=
  match o with
  | OClear => option_map clearList h
  | OSet m0 _ st =>
      let m := strip_msg m0 in
      if bad_message m then h
      else if String.eqb (tm_child m) n then
        Some (fst (insertData
          (match h with Some c => c | None => if st then Static None else Dynamic ct [] end)
          (sample_of m)))
      else h
  end.

(** The call concerns the frame called [n]: a message for child [n], or a clear. *)
Definition about (n : string) (o : core_op) : bool :=
  match o with OSet m _ _ => String.eqb (stripSlash (tm_child m)) n | OClear => true end.

(** The call registers the name [n]: a usable message naming it as child or parent. *)
Definition mentions (n : string) (o : core_op) : Prop :=
  match o with
  | OSet m _ _ => bad_message (strip_msg m) = false /\
                  (stripSlash (tm_child m) = n \/ stripSlash (tm_frame m) = n)
  | OClear => False
  end.

(** A message for a time-varying frame. *)
Definition is_dynamic_set (o : core_op) : Prop :=
  match o with OSet _ _ st => st = false | OClear => False end.

(** The samples offered to the frame called [n], in order. *)
Definition offers (n : string) (ops : list core_op) : list (storage S string) :=
  flat_map (fun o => match o with
    | OSet m _ _ => if negb (bad_message (strip_msg m)) && String.eqb (tm_child (strip_msg m)) n
                    then [sample_of (strip_msg m)] else []
    | OClear => [] end) ops.

(** No usable message for [n] (clears are allowed). *)
Definition not_set_again (n : string) (ops : list core_op) : Prop :=
  Forall (fun o => match o with
    | OSet m _ _ => bad_message (strip_msg m) = true \/ stripSlash (tm_child m) <> n
    | OClear => True end) ops.

(** Both static, or both time-varying with the same storage time. *)
Definition same_kind {F} (c c' : cache S F) : Prop :=
  match c with
  | Dynamic max _ => match c' with Dynamic max' _ => max = max' | Static _ => False end
  | Static _ => match c' with Dynamic _ _ => False | Static _ => True end
  end.

(** The name of an id ("" for ids that do not exist). *)
Definition name_of (s : core S) (i : nat) : string := nth i (c_rev s) EmptyString.

Definition map_storage {A B} (f : A -> B) (x : storage S A) : storage S B :=
  {| st_rot := st_rot x; st_trans := st_trans x; st_stamp := st_stamp x;
     st_frame := f (st_frame x); st_child := f (st_child x) |}.
Definition map_cache {A B} (f : A -> B) (c : cache S A) : cache S B :=
  match c with
  | Dynamic max l => Dynamic max (map (map_storage f) l)
  | Static o => Static (option_map (map_storage f) o)
  end.

(** Everything the buffer keeps about the frame called [n], with parents given by name.
    ("NO_PARENT" is the reserved name of id 0, which queries treat as unknown.) *)
Definition hist (s : core S) (n : string) : option (cache S string) :=
  match assoc n (c_ids s) with
  | None | Some O => None
  | Some i => option_map (map_cache (name_of s)) (getFrame s i)
  end.

(** A name the buffer can look up. *)
Definition known (s : core S) (n : string) : Prop :=
  frameExists s n = true /\ n <> NO_PARENT.

(** A name queries accept: not empty, no leading slash. *)
Definition plain (n : string) : Prop := n <> EmptyString /\ startsWithSlash n = false.

(** The samples kept in a history. *)
Definition samples {F} (c : cache S F) : list (storage S F) :=
  match c with
  | Dynamic _ l => l
  | Static (Some x) => [x]
  | Static None => []
  end.

(** All kept stamps are below 2^31 s (before 2038). *)
Definition early (s : core S) : Prop :=
  forall n c x, hist s n = Some c -> In x (samples c) -> st_stamp x < dur_bound.

(** The sample frame [n] yields at time [t], if any. *)
Definition sample_at (s : core S) (t : time) (n : string) : option (storage S string) :=
  match hist s n with
  | None => None
  | Some c =>
      match getData String.eqb c t None with
      | Ok (Some d, _) => Some d
      | _ => None
      end
  end.

(** The link from [n] to its parent at time [t]: a sample whose parent is a real frame. *)
Definition link (s : core S) (t : time) (n : string) : option (storage S string) :=
  match sample_at s t n with
  | Some d => if String.eqb (st_frame d) NO_PARENT then None else Some d
  | None => None
  end.

(** [climbs s t n ds m]: following the links [ds] upward from [n] leads to [m]. *)
Inductive climbs (s : core S) (t : time) : string -> list (storage S string) -> string -> Prop :=
| climbs_nil : forall n, climbs s t n [] n
| climbs_cons : forall n d ds m,
    link s t n = Some d -> climbs s t (st_frame d) ds m -> climbs s t n (d :: ds) m.

(** No upward chain at time [t] from [n] is longer than the code's depth bound.
    (In particular the chain has no cycle.) *)
Definition depth_ok (s : core S) (t : time) (n : string) : Prop :=
  forall ds m, climbs s t n ds m -> (List.length ds <= MAX_GRAPH_DEPTH)%nat.

(** [m] is where the upward chain from [n] at time [t] ends: it has no link to go on with. *)
Definition tops_at (s : core S) (t : time) (n m : string) : Prop :=
  (exists ds, climbs s t n ds m) /\ link s t m = None.

(** The upward chain from [n] at time [t] never ends: it runs into a cycle. *)
Definition endless (s : core S) (t : time) (n : string) : Prop :=
  forall k, exists ds m, climbs s t n ds m /\ List.length ds = k.

(** [c] is an ancestor-or-self of both [a] and [b] at time [t]. *)
Definition common_ancestor (s : core S) (t : time) (a b c : string) : Prop :=
  (exists ds, climbs s t a ds c) /\ (exists ds, climbs s t b ds c).

(** The names on a climb that have a link: its start and every frame up to but excluding the end. *)
Definition passed (ds : list (storage S string)) : list string := map (@st_child S string) ds.

(** [_getLatestCommonTime] by names (buffer_core.h 278-288 with [_lookupFrameNumber]). *)
Definition latest_common_time (s : core S) (target source : string) : res (tf2_error * option time) :=
  ' (code, ot, _) <- getLatestCommonTime s (lookupFrameNumber s target) (lookupFrameNumber s source) None ;;
  Ok (code, ot).

(** The oldest of the nonzero stamps; zero if there is none.  (A stamp equal to
    ros::TIME_MAX counts as none.) *)
Definition oldest_nonzero (stamps : list time) (r : time) : Prop :=
  (r = 0 /\ forall x, In x stamps -> x = 0 \/ TIME_MAX <= x) \/
  (r <> 0 /\ r < TIME_MAX /\ In r stamps /\ forall x, In x stamps -> x <> 0 -> r <= x).

(** Equal answers, up to the listing of all frames inside the text of a loop error. *)
Definition same_answer {A} (r r' : res A) : Prop :=
  r = r' \/ exists e e', r = Throw LookupException (ELoop e) /\ r' = Throw LookupException (ELoop e').

(** Rigid motions as (rotation, translation), composed as geometry does. *)
Definition pose := (quat S * vec3 S)%type.
Definition pose_id : pose := (qidentity, vzero).
Definition pose_mul (a b : pose) : pose :=
  (qmul (fst a) (fst b), vadd (quatRotate (fst a) (snd b)) (snd a)).
Definition pose_inv (a : pose) : pose :=
  (qinv (fst a), quatRotate (qinv (fst a)) (vneg (snd a))).
Definition pose_of (d : storage S string) : pose := (st_rot d, st_trans d).
(** The pose of the start of a climb in its end frame: parent-most link leftmost. *)
Definition climb_pose (ds : list (storage S string)) : pose :=
  fold_left (fun acc d => pose_mul (pose_of d) acc) ds pose_id.
End Spec.
Arguments core_op : clear implicits.
Arguments pose : clear implicits.

(** [tree_path s t source target l]: [l] lists the frames from [source] up to the nearest common
    ancestor [c] and down to [target]: no frame is passed on both sides. *)
Definition tree_path {S : Scalar} (s : core S) (t : time) (source target : string) (l : list string) : Prop :=
  exists ds dt c, climbs s t source ds c /\ climbs s t target dt c /\
    (forall n, In n (passed ds) -> In n (passed dt) -> False) /\
    l = passed ds ++ c :: rev (passed dt).

(** The source's parent [c] is where the path turns down towards the target, and [c] is itself
    below another frame.  (The case in which the code reports too many frames, C35.) *)
Definition turns_at_parent {S : Scalar} (s : core S) (t : time) (source target : string) : Prop :=
  exists d dt, link s t source = Some d /\ climbs s t target dt (st_frame d) /\ dt <> [] /\
    ~ In source (passed dt) /\ link s t (st_frame d) <> None.
