(** * tf2::BufferCore: transformable callbacks and requests

    Model of tf2/src/buffer_core.cpp 1230-1350 and 1411-1491 and of
    tf2/include/tf2/buffer_core.h 338-356.
    Simplifications: a callback is identified with the handle it is registered under (its
    body is user code and is not run here: a call returns the list of callback invocations it
    makes, in order); each public call is one atomic step (Interleaving.v splits them at their
    lock boundaries; ReEntrant.v runs the user code and the _transforms_changed_ signal of 1489). *)
From Coq Require Import ZArith Bool List String.
From Verif Require Import RosTime Scalar LinearMath Cache BufferCore.
Import ListNotations.
Open Scope Z_scope.

Definition uint32 : Z := 2 ^ 32.
Definition uint64 : Z := 2 ^ 64.
(** the two special return values, buffer_core.cpp 1278 and 1300 *)
Definition ALREADY_TRANSFORMABLE : Z := 0.
Definition NEVER_TRANSFORMABLE : Z := uint64 - 1.

(** buffer_core.h 64-68 *)
Inductive transformable_result := TransformAvailable | TransformFailure.

(** buffer_core.h 343-352 *)
Record request := mkRequest {
  rq_time : time;
  rq_handle : Z;          (* uint64 *)
  rq_cb : Z;              (* uint32 *)
  rq_target : nat;
  rq_source : nat;
  rq_target_string : string;
  rq_source_string : string
}.

(** One entry of the [transformables] vector, buffer_core.cpp 1416-1418: handle and names are
    copies; the time is a reference into the request vector, represented by its slot; the
    result is a reference to a variable local to the loop body. *)
Record event := mkEvent {
  ev_cb : Z;
  ev_handle : Z;
  ev_target : string;
  ev_source : string;
  ev_time_slot : nat;
  ev_result : transformable_result     (* value of the local when the reference was taken *)
}.

Section Req.
Context {S : Scalar}.
Notation core := (core S).

(** buffer_core.h 335-356 *)
Record buf := mkBuf {
  b_core : core;
  b_cbs : list Z;           (* keys of transformable_callbacks_ *)
  b_cb_counter : Z;         (* uint32 *)
  b_reqs : list request;    (* transformable_requests_ *)
  b_rq_counter : Z          (* uint64 *)
}.

(** buffer_core.cpp 169-178 constructor *)
Definition init_buf (cache_time : duration) : buf :=
  {| b_core := init_core cache_time; b_cbs := []; b_cb_counter := 0; b_reqs := []; b_rq_counter := 0 |}.

Definition registered (cbs : list Z) (h : Z) : bool := existsb (Z.eqb h) cbs.

(** 1233-1237: increment (uint32 wraps) until an unused handle is found; [None] = no handle
    among the next [fuel] is free *)
Fixpoint next_cb_handle (fuel : nat) (cbs : list Z) (counter : Z) : option Z :=
  match fuel with
  | O => None
  | Datatypes.S fuel' =>
      let h := (counter + 1) mod uint32 in
      if registered cbs h then next_cb_handle fuel' cbs h else Some h
  end.
(** 1230-1241 addTransformableCallback.  One of |callbacks|+1 successive handles is free unless
    all 2^32 are taken; then the C++ loop does not end ([None]). *)
Definition addTransformableCallback (b : buf) : buf * option Z :=
  match next_cb_handle (Datatypes.S (List.length (b_cbs b))) (b_cbs b) (b_cb_counter b) with
  | Some h => ({| b_core := b_core b; b_cbs := h :: b_cbs b; b_cb_counter := h;
                  b_reqs := b_reqs b; b_rq_counter := b_rq_counter b |}, Some h)
  | None => (b, None)
  end.

(** 1243-1271 removeTransformableCallback *)
Definition removeTransformableCallback (b : buf) (h : Z) : buf :=
  {| b_core := b_core b; b_cbs := filter (fun k => negb (Z.eqb k h)) (b_cbs b);
     b_cb_counter := b_cb_counter b;
     b_reqs := filter (fun r => negb (Z.eqb (rq_cb r) h)) (b_reqs b);
     b_rq_counter := b_rq_counter b |}.

(** 1287-1301 and 1434-1446: latest_time, and whether the request's time plus the cache time is
    before it.  [lim] throws when it is not a ros::Time, and is only computed if latest_time is
    not zero. *)
Definition too_old (s : core) (target source : nat) (t : time) : res bool :=
  ' (_, ot, _) <- getLatestCommonTime s target source None ;;
  let latest := match ot with Some l => l | None => 0 end in
  if latest =? 0 then Ok false
  else lim <- lift_time (time_add t (c_cache_time s)) ;; Ok (lim <? latest).

(** 796-801 canTransformInternal without error string *)
Definition canTransformInternal (s : core) (target source : nat) (t : time) : res bool :=
  ' (b, _) <- canTransformNoLock s target source t None ;; Ok b.

(** 1273-1326 addTransformableRequest, first part: what to do with the request *)
Inductive add_decision := Answer (h : Z) | Push (target source : nat).
Definition add_check (s : core) (target_frame source_frame : string) (t : time) : res add_decision :=
  if String.eqb target_frame source_frame then Ok (Answer ALREADY_TRANSFORMABLE)
  else
    let target := lookupFrameNumber s target_frame in
    let source := lookupFrameNumber s source_frame in
    can <- canTransformInternal s target source t ;;
    if can then Ok (Answer ALREADY_TRANSFORMABLE)
    else
      old <- (if Nat.eqb target 0 || Nat.eqb source 0 then Ok false else too_old s target source t) ;;
      if old then Ok (Answer NEVER_TRANSFORMABLE) else Ok (Push target source).
(** 1304-1325: second part: number the request and store it *)
Definition push_request (b : buf) (cb : Z) (target source : nat) (target_frame source_frame : string) (t : time) : buf * Z :=
  let counter := (b_rq_counter b + 1) mod uint64 in
  let h := if (counter =? 0) || (counter =? uint64 - 1) then 1 else counter in
  let r := {| rq_time := t; rq_handle := h; rq_cb := cb; rq_target := target; rq_source := source;
              rq_target_string := if Nat.eqb target 0 then target_frame else EmptyString;
              rq_source_string := if Nat.eqb source 0 then source_frame else EmptyString |} in
  ({| b_core := b_core b; b_cbs := b_cbs b; b_cb_counter := b_cb_counter b;
      b_reqs := b_reqs b ++ [r]; b_rq_counter := counter |}, h).
Definition addTransformableRequest (b : buf) (cb : Z) (target_frame source_frame : string) (t : time) : buf * res Z :=
  match add_check (b_core b) target_frame source_frame t with
  | Ok (Answer h) => (b, Ok h)
  | Ok (Push target source) =>
      let '(b', h) := push_request b cb target source target_frame source_frame t in (b', Ok h)
  | Throw c e => (b, Throw c e)
  | UB => (b, UB)
  end.

(** 1328-1350 cancelTransformableRequest.  The functor stores the 64-bit request handle in a
    member of type TransformableCallbackHandle, which is 32 bits wide (1340). *)
Definition cancelTransformableRequest (b : buf) (h : Z) : buf :=
  let handle_ := h mod uint32 in
  {| b_core := b_core b; b_cbs := b_cbs b; b_cb_counter := b_cb_counter b;
     b_reqs := filter (fun r => negb (Z.eqb (rq_handle r) handle_)) (b_reqs b);
     b_rq_counter := b_rq_counter b |}.

(** 1424-1433 *)
Definition resolve (s : core) (r : request) : request :=
  {| rq_time := rq_time r; rq_handle := rq_handle r; rq_cb := rq_cb r;
     rq_target := if Nat.eqb (rq_target r) 0 then lookupFrameNumber s (rq_target_string r) else rq_target r;
     rq_source := if Nat.eqb (rq_source r) 0 then lookupFrameNumber s (rq_source_string r) else rq_source r;
     rq_target_string := rq_target_string r; rq_source_string := rq_source_string r |}.

(** 1435-1451: [None] = do_cb stays false *)
Definition decide (s : core) (r : request) : res (option transformable_result) :=
  old <- too_old s (rq_target r) (rq_source r) (rq_time r) ;;
  if old then Ok (Some TransformFailure)
  else
    can <- canTransformInternal s (rq_target r) (rq_source r) (rq_time r) ;;
    Ok (if can then Some TransformAvailable else None).

(** 1455-1467; [slot] is the position of the request in the vector *)
Definition make_event (s : core) (cbs : list Z) (r : request) (slot : nat) (result : transformable_result)
  : res (list event) :=
  if registered cbs (rq_cb r) then
    tn <- lookupFrameString s (rq_target r) ;;
    sn <- lookupFrameString s (rq_source r) ;;
    Ok [{| ev_cb := rq_cb r; ev_handle := rq_handle r; ev_target := tn; ev_source := sn;
           ev_time_slot := slot; ev_result := result |}]
  else Ok [].

(** 1469-1475: overwrite with the last element and drop the last element *)
Definition swap_remove (rest : list request) : list request :=
  match rev rest with
  | [] => []
  | l :: _ => l :: removelast rest
  end.

(** 1420-1480: [kept] is the part of the vector before the iterator, [rest] the part from it on;
    [n] is the number of elements still to look at.  Returns the final vector; an exception
    leaves it as it is and loses the events collected so far. *)
Fixpoint test_loop (n : nat) (s : core) (cbs : list Z) (kept rest : list request) (evs : list event)
  : list request * res (list event) :=
  match n, rest with
  | O, _ => (kept ++ rest, Ok evs)
  | _, [] => (kept ++ rest, Ok evs)
  | Datatypes.S n', r0 :: rest' =>
      let r := resolve s r0 in
      match decide s r with
      | Throw c e => (kept ++ r :: rest', Throw c e)
      | UB => (kept ++ r :: rest', UB)
      | Ok None => test_loop n' s cbs (kept ++ [r]) rest' evs
      | Ok (Some result) =>
          match make_event s cbs r (List.length kept) result with
          | Ok e => test_loop n' s cbs kept (swap_remove rest') (evs ++ e)
          | Throw c e => (kept ++ r :: rest', Throw c e)
          | UB => (kept ++ r :: rest', UB)
          end
      end
  end.

(** 1411-1491 testTransformableRequests: the callback invocations it makes, in order *)
Definition testTransformableRequests (b : buf) : buf * res (list event) :=
  let '(reqs, r) := test_loop (List.length (b_reqs b)) (b_core b) (b_cbs b) [] (b_reqs b) [] in
  ({| b_core := b_core b; b_cbs := b_cbs b; b_cb_counter := b_cb_counter b; b_reqs := reqs;
      b_rq_counter := b_rq_counter b |}, r).

Definition with_core (b : buf) (s : core) : buf :=
  {| b_core := s; b_cbs := b_cbs b; b_cb_counter := b_cb_counter b; b_reqs := b_reqs b;
     b_rq_counter := b_rq_counter b |}.

(** 202-287 setTransform, complete: return value and callback invocations *)
Definition set_transform (b : buf) (m : tmsg S) (authority : string) (is_static : bool)
  : buf * res (bool * list event) :=
  let '(s', r) := setTransform (b_core b) m authority is_static in
  let b' := with_core b s' in
  match r with
  | Ok true =>
      let '(b'', evs) := testTransformableRequests b' in
      (b'', e <- evs ;; Ok (true, e))
  | Ok false => (b', Ok (false, []))
  | Throw c e => (b', Throw c e)
  | UB => (b', UB)
  end.

(** What the callback finds behind the references when it is finally invoked (1484-1487), given
    the request vector at that moment: the time designates whatever request now occupies the
    slot, or nothing; the loop-local result no longer exists. *)
Record delivery := mkDelivery { dl_time : option time; dl_result : option transformable_result }.
Definition deliver (reqs : list request) (e : event) : delivery :=
  {| dl_time := option_map rq_time (nth_error reqs (ev_time_slot e)); dl_result := None |}.
End Req.
Arguments buf : clear implicits.
