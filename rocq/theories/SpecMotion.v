(** * Specification vocabulary for how fast looked-up poses move (over the reals) *)
From Coq Require Import ZArith Bool Reals List String.
From Verif Require Import RosTime Scalar LinearMath Cache BufferCore SpecCore Instances RealSlerp SpecRound.
Import ListNotations.
Open Scope R_scope.

(** Seconds in a number of nanoseconds. *)
Definition secs (ns : Z) : R := IZR ns / 1000000000.

(** The angle (in radians, at most half a turn) between two orientations given by unit
    quaternions: twice the arc between them, the shorter way round. *)
Definition turned_by (p q : quat RS) : R := 2 * acos (Rabs (qinner p q)).

(** [b] directly follows [a] in time among the samples of [l]. *)
Definition next_in (l : list (storage RS string)) (a b : storage RS string) : Prop :=
  In a l /\ In b l /\ (st_stamp a < st_stamp b)%Z /\
  forall x, In x l -> (st_stamp x <= st_stamp a \/ st_stamp b <= st_stamp x)%Z.

(** The stored samples of the frame called [n] keep one parent and move no faster, from each
    to the next, than [V] metres and [W] radians per second. *)
Definition limited (s : core RS) (V W : R) (n : string) : Prop :=
  forall c, hist s n = Some c ->
  (forall a b, In a (samples c) -> In b (samples c) -> st_frame a = st_frame b) /\
  forall a b, next_in (samples c) a b ->
    vdist (st_trans a) (st_trans b) <= V * secs (st_stamp b - st_stamp a) /\
    turned_by (st_rot a) (st_rot b) <= W * secs (st_stamp b - st_stamp a).

(** Every stored sample of the frame called [n] is within [L] of its parent's origin. *)
Definition within_reach (s : core RS) (L : R) (n : string) : Prop :=
  forall c x, hist s n = Some c -> In x (samples c) -> vnorm (st_trans x) <= L.

(** Where a pose takes a point. *)
Definition takes (p : pose RS) (v : vec3 RS) : vec3 RS := vadd (quatRotate (fst p) v) (snd p).
