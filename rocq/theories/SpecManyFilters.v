(** * Specification vocabulary for several message filters on one buffer (C84) *)
From Coq Require Import ZArith Bool List String.
From Verif Require Import RosTime Scalar LinearMath Cache BufferCore SpecCore Requests SpecRequests MessageFilter SpecFilter ManyFilters.
Import ListNotations.
Open Scope Z_scope.

(** What can happen to the buffer and the filters on it. *)
Inductive w_op (S : Scalar) :=
| WNew (target : string) (queue_size : nat) (has_cbq : bool)   (* another filter is constructed *)
| WDestroy (k : nat)                                           (* filter k is destroyed *)
| WDo (k : nat) (o : mf_op S)                                  (* a call on filter k: add, clear, ... *)
| WTransform (m : tmsg S) (authority : string) (is_static : bool) (read : nat -> transformable_result)
| WOther (o : req_op S).                                       (* another client of the buffer *)
Arguments WNew {S} target queue_size has_cbq.
Arguments WDestroy {S} k.
Arguments WDo {S} k o.
Arguments WTransform {S} m authority is_static read.
Arguments WOther {S} o.

Section Spec.
Context {S : Scalar}.
Notation world := (world S).

(** calls on the filter itself *)
Definition own_call (o : mf_op S) : bool := match o with MTransform _ _ _ _ | MOther _ => false | _ => true end.
(** Other clients keep to their own callbacks (which they have registered) and requests. *)
Definition keeps_out (w : world) (o : req_op S) : bool :=
  match o with
  | RSet _ _ _ => false                              (* that is WTransform *)
  | RClear | RAddCallback => true
  | RRemoveCallback cb | RAddRequest cb _ _ _ =>
      registered (b_cbs (w_buf w)) cb && negb (existsb (Z.eqb cb) (w_dead w)) &&
      match owner (w_filters w) cb with Some _ => false | None => true end
  | RCancel h => negb (existsb (fun r => match owner (w_filters w) (rq_cb r) with Some _ => rq_handle r =? h mod uint32 | None => false end) (b_reqs (w_buf w)))
  end.
Definition w_step (w : world) (o : w_op S) : world :=
  match o with
  | WNew target q cbq => w_new w target q cbq
  | WDestroy k => w_destroy w k
  | WDo k o => if own_call o then match seen w k with Some f => put w k (mf_step f o) | None => w end else w
  | WTransform m a st read => fst (w_set_transform w m a st read)
  | WOther o => if keeps_out w o then mkWorld (fst (fst (req_step (w_buf w) o))) (w_filters w) (w_dead w) else w
  end.

(** The conditions of [calm], for the filter that is called, and for the buffer. *)
Definition w_calm_op (T : duration) (w : world) (o : w_op S) : Prop :=
  match o with
  | WNew _ _ _ | WDestroy _ => True
  | WDo k o => forall f, seen w k = Some f -> calm_op T f o
  | WTransform m _ _ _ => valid_time (tm_stamp m)
  | WOther o => req_op_ok o /\ match o with RAddRequest _ _ _ t => t + c_cache_time (b_core (w_buf w)) < time_bound | _ => True end
  end.
(** Histories from a buffer in any state, on which there are no filters yet (its pending requests,
    if any, name callbacks that are registered). *)
Inductive w_calm (T : duration) : world -> Prop :=
| w_calm_init : forall b, 0 <= T -> req_reachable b -> times_in_range b -> (forall p, In p (pending b) -> In (p_cb p) (b_cbs b)) -> b_rq_counter b < 2 ^ 32 -> Z.of_nat (List.length (b_cbs b)) < 2 ^ 32 - 1 ->
    w_calm T (mkWorld b [] [])
| w_calm_step : forall w o, w_calm T w -> w_calm_op T w o -> b_rq_counter (w_buf (w_step w o)) < 2 ^ 32 ->
    Z.of_nat (List.length (b_cbs (w_buf (w_step w o)))) < 2 ^ 32 - 1 -> w_calm T (w_step w o).

(** What a step of the world is for filter [k] alone: its own call, the transform, or calls other
    clients of the buffer make. *)
Definition alone (k : nat) (o : w_op S) (ops : list (mf_op S)) : Prop :=
  match o with
  | WTransform m a st read => ops = [MTransform m a st read]
  | WDo j o' => if Nat.eqb j k && own_call o' then ops = [o'] else Forall (fun x => exists r, x = MOther r) ops
  | WNew _ _ _ | WDestroy _ | WOther _ => Forall (fun x => exists r, x = MOther r) ops
  end.
End Spec.
