(** * Specification vocabulary for user code called from inside setTransform (C86) *)
From Coq Require Import ZArith Bool List String.
From Verif Require Import RosTime Scalar LinearMath Cache BufferCore Requests SpecRequests ReEntrant.
Import ListNotations.
Open Scope Z_scope.

Section Spec.
Context {S : Scalar}.
Notation item := (item S).
Notation world := (world S).
Notation act := (act S).
Notation user := (list item -> who -> list act).

(** The public calls made so far, in the order they began, with their answers *)
Definition calls (log : list item) : list (entry (S := S)) :=
  flat_map (fun x => match x with Called o a evs => [(o, a, evs)] | _ => [] end) log.
Definition ops (log : list item) : list (req_op S) := map (fun x : entry (S := S) => fst (fst x)) (calls log).
(** The notifications that reached a callback *)
Definition notified (log : list item) : list event :=
  flat_map (fun x => match x with Notified e _ => [e] | _ => [] end) log.
(** A transform was accepted: setTransform returned true. *)
Definition took (o : req_op S) (a : answer) : bool :=
  match o, a with RSet _ _ _, ABool (Ok true) => true | _, _ => false end.
(** How often [l] was told, how many transforms were accepted *)
Definition times_told (l : nat) (log : list item) : nat :=
  List.length (filter (fun x => match x with Changed k => Nat.eqb k l | _ => false end) log).
Definition times_accepted (log : list item) : nat :=
  List.length (filter (fun x => match x with Called o a _ => took o a | _ => false end) log).
(** No exception so far *)
Definition is_exception (x : item) : bool :=
  match x with
  | Raised => true
  | Called _ (ABool (Ok _)) _ | Called _ (AHandle (Ok _)) _ | Called _ AVoid _ | Called _ (ACallback _) _ => false
  | Called _ _ _ => true
  | _ => false
  end.
Definition no_exception (log : list item) : Prop := forall x, In x log -> is_exception x = false.

(** Arguments have their C++ types. *)
Definition act_ok (a : act) : Prop := match a with Call o => req_op_ok o | _ => True end.

(** Everything that can happen with the user code [u] and any program outside. *)
Inductive can_follow (u : user) (w : world) : world -> Prop :=
| cf_refl : can_follow u w w
| cf_begin : forall w1 a, can_follow u w w1 -> w_stack w1 = [] -> w_ub w1 = false -> act_ok a -> can_follow u w (begin w1 a)
| cf_step : forall w1 w2, can_follow u w w1 -> step u w1 = Some w2 -> can_follow u w w2.
Definition can_happen (u : user) (ct : duration) : world -> Prop := can_follow u (init_world ct).

(** A listener connected and not disconnected *)
Definition connected (log : list item) (i : nat) : Prop :=
  exists l1 l2, log = (l1 ++ Listened i :: l2)%list /\ ~ In (Unlistened i) l2.
(** A call was to make the notification [e], and its callback was removed after that call began *)
Definition removed_since (log : list item) (e : event) : Prop :=
  exists l1 o a evs l2 a' evs', log = (l1 ++ Called o a evs :: l2)%list /\ In e evs /\
    In (Called (RRemoveCallback (ev_cb e)) a' evs') l2.

(** All user code returned to the outermost program. *)
Definition idle (w : world) : Prop := w_stack w = [] /\ w_ub w = false.

(** How a complete stretch of activity looks: calls one after the other; after an accepted transform
    its notifications in their order, each callback's own activity finished before the next one is
    called, then the signal, then the listeners in order (a disconnected one may be passed over), each
    one's own activity finished before the next. *)
Definition plain (x : item) : Prop :=
  match x with
  | Called o a evs => took o a = false /\ evs = []
  | Listened _ | Unlistened _ => True
  | _ => False
  end.
Inductive stretch : list item -> Prop :=
| st_nil : stretch []
| st_plain : forall x l, plain x -> stretch l -> stretch (x :: l)
| st_set : forall o a evs l1 ls l2 l, took o a = true -> answers evs l1 -> tellings ls l2 -> stretch l ->
    stretch (Called o a evs :: l1 ++ Signalled ls :: l2 ++ l)
with answers : list event -> list item -> Prop :=
| an_nil : answers [] []
| an_one : forall e d evs l l', stretch l -> answers evs l' -> answers (e :: evs) (Notified e d :: l ++ l')
with tellings : list nat -> list item -> Prop :=
| te_nil : tellings [] []
| te_told : forall i ls l l', stretch l -> tellings ls l' -> tellings (i :: ls) (Changed i :: l ++ l')
| te_gone : forall i ls l, tellings ls l -> tellings (i :: ls) l.
End Spec.
