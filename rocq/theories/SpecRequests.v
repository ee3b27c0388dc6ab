(** * Specification vocabulary for transformable requests *)
From Coq Require Import ZArith Bool List String.
From Verif Require Import RosTime Scalar LinearMath Cache BufferCore SpecCore Requests.
Import ListNotations.
Open Scope Z_scope.

(** Public calls. *)
Inductive req_op (S : Scalar) :=
| RSet (m : tmsg S) (authority : string) (is_static : bool)
| RClear
| RAddCallback
| RRemoveCallback (cb : Z)
| RAddRequest (cb : Z) (target source : string) (t : time)
| RCancel (h : Z).
Arguments RSet {S} m authority is_static.
Arguments RClear {S}.
Arguments RAddCallback {S}.
Arguments RRemoveCallback {S} cb.
Arguments RAddRequest {S} cb target source t.
Arguments RCancel {S} h.

(** What a call returns. *)
Inductive answer :=
| AVoid | ABool (r : res bool) | AHandle (r : res Z) | ACallback (h : option Z).

Section Spec.
Context {S : Scalar}.
Notation buf := (buf S).
Notation req_op := (req_op S).

(** One call: new state, return value, callback invocations made during it. *)
Definition req_step (b : buf) (o : req_op) : buf * answer * list event :=
  match o with
  | RSet m a st =>
      let '(b', r) := set_transform b m a st in
      (b', ABool (' (v, _) <- r ;; Ok v), match r with Ok (_, evs) => evs | _ => [] end)
  | RClear => (with_core b (clear (b_core b)), AVoid, [])
  | RAddCallback => let '(b', h) := addTransformableCallback b in (b', ACallback h, [])
  | RRemoveCallback cb => (removeTransformableCallback b cb, AVoid, [])
  | RAddRequest cb tgt src t => let '(b', r) := addTransformableRequest b cb tgt src t in (b', AHandle r, [])
  | RCancel h => (cancelTransformableRequest b h, AVoid, [])
  end.

(** A history: the state after it, and its log. *)
Definition entry := (req_op * answer * list event)%type.
Fixpoint req_run (b : buf) (ops : list req_op) : buf * list entry :=
  match ops with
  | [] => (b, [])
  | o :: ops' =>
      let '(b', a, evs) := req_step b o in
      let '(b'', log) := req_run b' ops' in
      (b'', (o, a, evs) :: log)
  end.
Definition events_of (log : list entry) : list event := flat_map (fun x => snd x) log.

(** Arguments have their C++ types. *)
Definition req_op_ok (o : req_op) : Prop :=
  match o with
  | RSet m _ _ => valid_time (tm_stamp m)
  | RAddRequest cb _ _ t => 0 <= cb < uint32 /\ valid_time t
  | RRemoveCallback cb => 0 <= cb < uint32
  | RCancel h => 0 <= h < uint64
  | RClear | RAddCallback => True
  end.

(** States reached by histories in which the counter of requests has not reached its end: fewer
    than 2^64 - 2 requests were stored (no request-handle wrap-around). *)
Inductive req_reachable : buf -> Prop :=
| rr_init : forall ct, 0 <= ct < dur_bound -> req_reachable (init_buf ct)
| rr_step : forall b o, req_reachable b -> req_op_ok o -> b_rq_counter (fst (fst (req_step b o))) < uint64 - 2 ->
    req_reachable (fst (fst (req_step b o))).

(** A pending request, as the caller made it. *)
Record preq := mkPreq { p_handle : Z; p_cb : Z; p_target : string; p_source : string; p_time : time }.
Definition view (s : core S) (r : request) : preq :=
  {| p_handle := rq_handle r; p_cb := rq_cb r;
     p_target := if Nat.eqb (rq_target r) 0 then rq_target_string r else name_of s (rq_target r);
     p_source := if Nat.eqb (rq_source r) 0 then rq_source_string r else name_of s (rq_source r);
     p_time := rq_time r |}.
Definition pending (b : buf) : list preq := map (view (b_core b)) (b_reqs b).

(** The latest common time of the two frames is known, not zero, and more than the cache time
    later than the request. *)
Definition expired (s : core S) (p : preq) : bool :=
  match latest_common_time s (p_target p) (p_source p) with
  | Ok (_, Some l) => negb (l =? 0) && (p_time p + c_cache_time s <? l)
  | _ => false
  end.
(** The frames can be transformed at the time requested (see C30_available_is_canTransform). *)
Definition available (s : core S) (tgt src : string) (t : time) : bool :=
  match canTransformInternal s (lookupFrameNumber s tgt) (lookupFrameNumber s src) t with
  | Ok b => b
  | _ => false
  end.
(** What a pending request is due: failure takes precedence. *)
Definition due (s : core S) (p : preq) : option transformable_result :=
  if expired s p then Some TransformFailure
  else if available s (p_target p) (p_source p) (p_time p) then Some TransformAvailable
  else None.

(** The by-value part of a notification. *)
Record notice := mkNotice { n_cb : Z; n_handle : Z; n_target : string; n_source : string; n_result : transformable_result }.
Definition notice_of (e : event) : notice :=
  {| n_cb := ev_cb e; n_handle := ev_handle e; n_target := ev_target e; n_source := ev_source e; n_result := ev_result e |}.
(** The notifications pending request [p] is owed in state [s] with callbacks [cbs]. *)
Definition owed (s : core S) (cbs : list Z) (p : preq) : list notice :=
  match due s p with
  | Some r => if registered cbs (p_cb p)
              then [{| n_cb := p_cb p; n_handle := p_handle p; n_target := p_target p; n_source := p_source p; n_result := r |}]
              else []
  | None => []
  end.
Definition not_due (s : core S) (p : preq) : bool := match due s p with Some _ => false | None => true end.

(** No pending request's time plus the cache time leaves the range of ros::Time. *)
Definition times_in_range (b : buf) : Prop :=
  forall p, In p (pending b) -> p_time p + c_cache_time (b_core b) < time_bound.
End Spec.
