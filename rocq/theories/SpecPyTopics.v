(** * Specification vocabulary for the Python listener *)
From Coq Require Import ZArith Bool List String.
From Verif Require Import RosTime Scalar LinearMath Cache BufferCore SpecCore SpecTopics PyTime PyCore SpecPy PyListener.
Import ListNotations.
Open Scope Z_scope.

Section Spec.
Context {S : Scalar}.

(** The buffer call that is due for a transform. *)
Definition due (who : string) (is_static : bool) (m : tmsg S) : @py_op S := if is_static then PSetStatic m who else PSet m who.
(** The messages delivered in a schedule, each as the calls due for it, and the clock readings in
    the order in which they are made. *)
Fixpoint delivered (h : list (action S)) : list (list (@py_op S)) :=
  match h with
  | [] => []
  | Arrive who st ms :: h' => map (due who st) ms :: delivered h'
  | _ :: h' => delivered h'
  end.
Fixpoint readings (h : list (action S)) : list time :=
  match h with
  | [] => []
  | Check _ now :: h' => now :: readings h'
  | _ :: h' => readings h'
  end.
(** How often a sequence of clock readings that starts at [last] goes back. *)
Fixpoint backward_steps (last : time) (l : list time) : nat :=
  match l with
  | [] => 0
  | t :: l' => (if (t <? last)%Z then 1 else 0) + backward_steps t l'
  end%nat.

(** A log of the buffer calls: each one made by a callback ([Some k]: for the k-th message) or by
    check_for_reset ([None]). *)
Notation entry := (option nat * @py_op S)%type.
Definition calls_of (k : nat) (log : list entry) : list (@py_op S) :=
  map snd (filter (fun e => match fst e with Some j => Nat.eqb j k | None => false end) log).
Definition resets (log : list entry) : list (@py_op S) := map snd (filter (fun e => match fst e with None => true | _ => false end) log).
(** Every callback has done all its work. *)
Definition settled (l : plistener S) : Prop := forall r, In r (pl_running l) -> r_checked r = true /\ r_todo r = [].

(** Messages handled one after the other. *)
Definition one_by_one_at (k : nat) (a : arrival S) : list (action S) :=
  Arrive (a_who a) (a_static a) (a_msg a) :: Check k (a_now a) :: repeat (SetNext k) (List.length (a_msg a)).
Fixpoint one_by_one (k : nat) (h : list (arrival S)) : list (action S) :=
  match h with [] => [] | a :: h' => one_by_one_at k a ++ one_by_one (k + 1) h' end.
(** The buffer calls owed for it (the Python reading of SpecTopics.calls_for_all, C52). *)
Fixpoint py_calls (last : time) (h : list (arrival S)) : list (@py_op S) :=
  match h with
  | [] => []
  | a :: h' => (if a_now a <? last then [PClear] else []) ++ map (due (a_who a) (a_static a)) (a_msg a) ++ py_calls (a_now a) h'
  end.
(** Stamps of all messages before 2038. *)
Definition soon_messages (h : list (action S)) : Prop :=
  Forall (fun a => match a with Arrive _ _ ms => Forall (fun m => 0 <= tm_stamp m < year_2038) ms | _ => True end) h.
(** At [l] the transform [m] is still to be set by a callback under way, or its message is
    delivered in [h]. *)
Definition source (l : plistener S) (h : list (action S)) (who : string) (st : bool) (m : tmsg S) : Prop :=
  (exists r, In r (pl_running l) /\ r_who r = who /\ r_static r = st /\ In m (r_todo r)) \/
  (exists ms, In (Arrive who st ms) h /\ In m ms).
End Spec.
