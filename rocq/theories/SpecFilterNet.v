(** * Specification vocabulary for a message filter in a network (C95) *)
From Coq Require Import ZArith Bool List String.
From Verif Require Import RosTime Scalar LinearMath Cache BufferCore SpecCore Requests SpecRequests MessageFilter SpecFilter Network SpecNetwork.
Import ListNotations.
Open Scope Z_scope.

Section Spec.
Context {S : Scalar}.

(** Calls on a buffer into which only what has been broadcast is put. *)
Definition fed (nops : list (net_op S)) (o : core_op S) : Prop :=
  match o with OSet m _ st => sent nops m st | OClear => True end.
Definition filter_fed (nops : list (net_op S)) (o : mf_op S) : Prop :=
  match o with MTransform m _ st _ => sent nops m st | _ => True end.
(** Everything is broadcast with stamps before 2038. *)
Definition sent_early (nops : list (net_op S)) : Prop := forall m st, sent nops m st -> 0 <= tm_stamp m < dur_bound.
End Spec.
