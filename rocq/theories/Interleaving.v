(** * Transformable requests made while transforms arrive on other threads

    Model of the lock structure of tf2/src/buffer_core.cpp: setTransform inserts under
    frame_mutex_ (265-282), releases it and then tests the requests under
    transformable_requests_mutex_ (284, 1411-1480); addTransformableRequest checks the frames
    (1281-1302) and only then takes transformable_requests_mutex_ to store the request
    (1322-1323).  Any number of threads.  Simplifications: each of these four pieces is one
    atomic step (the checks in fact take frame_mutex_ several times or, for latest common time
    and frame numbers, not at all); the request counter is incremented together with the
    storing (in the code it is incremented just before taking the lock, 1306). *)
From Coq Require Import ZArith Bool List String.
From Verif Require Import RosTime Scalar LinearMath Cache BufferCore Requests.
Import ListNotations.
Open Scope Z_scope.

(** A request that was checked and is not stored yet: a thread between 1302 and 1322. *)
Record checked := mkChecked { k_cb : Z; k_tgt_id : nat; k_src_id : nat; k_tgt : string; k_src : string; k_time : time }.

Inductive action (S : Scalar) :=
| Check (cb : Z) (target source : string) (t : time)     (* 1276-1302 *)
| Store (i : nat)                                         (* 1304-1325 for the i-th checked request *)
| Insert (m : tmsg S) (authority : string) (is_static : bool)   (* 202-282 *)
| Test                                                    (* 284: testTransformableRequests *)
| AddCallback | RemoveCallback (cb : Z) | Cancel (h : Z) | Clear.
Arguments Check {S} cb target source t.
Arguments Store {S} i.
Arguments Insert {S} m authority is_static.
Arguments Test {S}.
Arguments AddCallback {S}.
Arguments RemoveCallback {S} cb.
Arguments Cancel {S} h.
Arguments Clear {S}.

(** What an action lets its thread see. *)
Inductive effect :=
| Quiet
| Answered (r : res Z)         (* addTransformableRequest returned without storing *)
| Stored (h : Z)               (* addTransformableRequest stored the request and returned h *)
| Inserted (r : res bool)
| Tested (r : res (list event)).

Section Conc.
Context {S : Scalar}.
(** The buffer, the threads inside addTransformableRequest, and the number of threads inside
    setTransform between insertion and test. *)
Record conc := mkConc { x_buf : buf S; x_checked : list checked; x_tests : nat }.

Fixpoint remove_nth {A} (i : nat) (l : list A) : list A :=
  match i, l with
  | _, [] => []
  | O, _ :: l' => l'
  | Datatypes.S i', x :: l' => x :: remove_nth i' l'
  end.

Definition act (x : conc) (a : action S) : conc * effect :=
  match a with
  | Check cb tgt src t =>
      match add_check (b_core (x_buf x)) tgt src t with
      | Ok (Answer h) => (x, Answered (Ok h))
      | Ok (Push i j) => (mkConc (x_buf x) (x_checked x ++ [mkChecked cb i j tgt src t]) (x_tests x), Quiet)
      | Throw c e => (x, Answered (Throw c e))
      | UB => (x, Answered UB)
      end
  | Store i =>
      match nth_error (x_checked x) i with
      | Some k =>
          let '(b', h) := push_request (x_buf x) (k_cb k) (k_tgt_id k) (k_src_id k) (k_tgt k) (k_src k) (k_time k) in
          (mkConc b' (remove_nth i (x_checked x)) (x_tests x), Stored h)
      | None => (x, Quiet)
      end
  | Insert m au st =>
      let '(s', r) := setTransform (b_core (x_buf x)) m au st in
      (mkConc (with_core (x_buf x) s') (x_checked x)
         (match r with Ok true => Datatypes.S (x_tests x) | _ => x_tests x end), Inserted r)
  | Test =>
      match x_tests x with
      | O => (x, Quiet)
      | Datatypes.S n =>
          let '(b', r) := testTransformableRequests (x_buf x) in (mkConc b' (x_checked x) n, Tested r)
      end
  | AddCallback => (mkConc (fst (addTransformableCallback (x_buf x))) (x_checked x) (x_tests x), Quiet)
  | RemoveCallback cb => (mkConc (removeTransformableCallback (x_buf x) cb) (x_checked x) (x_tests x), Quiet)
  | Cancel h => (mkConc (cancelTransformableRequest (x_buf x) h) (x_checked x) (x_tests x), Quiet)
  | Clear => (mkConc (with_core (x_buf x) (clear (b_core (x_buf x)))) (x_checked x) (x_tests x), Quiet)
  end.

Fixpoint acts (x : conc) (l : list (action S)) : conc * list (action S * effect) :=
  match l with
  | [] => (x, [])
  | a :: l' =>
      let '(x', e) := act x a in
      let '(x'', log) := acts x' l' in (x'', (a, e) :: log)
  end.
Definition init_conc (ct : duration) : conc := mkConc (init_buf ct) [] 0.
End Conc.
Arguments conc : clear implicits.
