(** * Specification vocabulary for error texts (C79) *)
From Coq Require Import ZArith Bool List String.
From Verif Require Import RosTime Scalar LinearMath Cache BufferCore SpecCore.
Import ListNotations.
Open Scope Z_scope.
Open Scope string_scope.

(** [gap s t n x]: frame [n] has a history, which cannot be used to go up at time [t], and the
    text [x] states the reason: there is one sample only and it is at another time; all samples
    are older than [t], the newest being the one named; all are newer than [t], the oldest being
    the one named.  The text is empty when the history is empty, and when the sample's parent is
    the reserved name. *)
Inductive gap {S : Scalar} (s : core S) (t : time) (n : string) : etext -> Prop :=
| gap_nothing : forall h, hist s n = Some h -> samples h = [] -> gap s t n EEmpty
| gap_only : forall h x, hist s n = Some h -> samples h = [x] -> st_stamp x <> t -> t <> 0 ->
    gap s t n (EExtrapOnly t (st_stamp x))
| gap_future : forall h x y l, hist s n = Some h -> samples h = x :: y :: l -> t <> 0 ->
    (forall z, In z (samples h) -> st_stamp z <= st_stamp x) -> st_stamp x < t ->
    gap s t n (EExtrapFuture t (st_stamp x))
| gap_past : forall h x, hist s n = Some h -> (2 <= List.length (samples h))%nat -> t <> 0 ->
    In x (samples h) -> (forall z, In z (samples h) -> st_stamp x <= st_stamp z) -> t < st_stamp x ->
    gap s t n (EExtrapPast t (st_stamp x))
| gap_reserved : forall d, sample_at s t n = Some d -> st_frame d = NO_PARENT -> gap s t n EEmpty.

(** What canTransform reports in place of what lookupTransform throws. *)
Definition verdict {A} (r : res A) : res (bool * errp) :=
  match r with
  | Ok _ => Ok (true, Some EEmpty)
  | Throw RuntimeError e => Throw RuntimeError e      (* rostime's own exception passes through *)
  | Throw _ e => Ok (false, Some e)
  | UB => UB
  end.

(** [told old l]: the texts [l] were appended to [old], in order. *)
Definition told (old : etext) (l : list etext) : etext := fold_left EAppend l old.

(** The time a query is about: the one given, or for zero the latest common time. *)
Definition resolves {S : Scalar} (s : core S) (tgt src : string) (t t' : time) : Prop :=
  (t <> 0 /\ t' = t) \/ (t = 0 /\ latest_common_time s tgt src = Ok (NO_ERROR, Some t')).

(** What lookups say about a name they cannot accept as argument [arg]. *)
Inductive complaint {S : Scalar} (s : core S) (arg n : string) : exn_class -> etext -> Prop :=
| complaint_empty : n = "" -> complaint s arg n InvalidArgumentException (EEmptyFrameId arg)
| complaint_slash : n <> "" -> startsWithSlash n = true -> complaint s arg n InvalidArgumentException (ESlashFrameId arg n)
| complaint_unknown : plain n -> ~ known s n -> complaint s arg n LookupException (ENoSuchFrame arg n).

(** The "does not exist" texts for the unknown ones among named arguments, in order. *)
Inductive absent {S : Scalar} (s : core S) : list (string * string) -> list etext -> Prop :=
| absent_nil : absent s [] []
| absent_known : forall role n l l', known s n -> absent s l l' -> absent s ((role, n) :: l) l'
| absent_unknown : forall role n l l', ~ known s n -> absent s l l' ->
    absent s ((role, n) :: l) (ENoSuchFrame role n :: l').
