(** * What a history of one node says about the service tf2_frames *)
From Coq Require Import ZArith Bool List String.
From Verif Require Import RosTime Scalar LinearMath Cache BufferCore SpecCore Introspection FramesService.
Import ListNotations.

Section Spec.
Context {S : Scalar}.
(** [b] was constructed, or is being constructed, with debug. *)
Definition debug (h : list (event S)) (b : nat) : Prop := exists ct, In (Begin b true ct) h.
(** What was done to [b]. *)
Definition uses (h : list (event S)) (b : nat) : list (core_op S) :=
  flat_map (fun e => match e with Use b' o => if Nat.eqb b b' then [o] else [] | _ => [] end) h.
(** [c] is what the buffer [b] holds after [h]. *)
Definition holds (h : list (event S)) (b : nat) (c : core S) : Prop :=
  exists d ct, In (Begin b d ct) h /\ c = run (init_core ct) (uses h b).
(** Of the buffers with debug, [b] was the first to finish its constructor. *)
Definition first_debug (h : list (event S)) (b : nat) : Prop :=
  exists h1 h2, h = h1 ++ Finish b :: h2 /\ debug h b /\
    forall b', In (Finish b') h1 -> ~ debug h b'.
End Spec.
