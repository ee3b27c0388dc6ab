(** * Specification: calls from several threads (C82)

    What it means that concurrent calls behave as if made one after the other. *)
From Coq Require Import ZArith Bool List String Arith.
From Verif Require Import RosTime Scalar LinearMath Cache BufferCore Introspection SpecCore CoreThreads.
Import ListNotations.
Open Scope Z_scope.

Section Spec.
Context {S : Scalar}.

(** ** One call at a time *)
(** A call made while nobody else uses the buffer: what it does to the buffer and what it
    answers. *)
Definition alone (s : core S) (c : call S) : core S * answer S :=
  match c with
  | SetTransform m a st => let '(s', r) := setTransform s m a st in (s', IsSet r)
  | Clear => (clear s, IsCleared)
  | LookupTransform tg sr t => (s, Transform (lookupTransform s tg sr t))
  | LookupTransformFixed tg tgt sr srt fx => (s, Transform (lookupTransformFixed s tg tgt sr srt fx))
  | CanTransform tg sr t e => (s, Can (canTransform s tg sr t e))
  | CanTransformFixed tg tgt sr srt fx e => (s, Can (canTransformFixed s tg tgt sr srt fx e))
  | AllFramesAsString => (s, Text (allFramesAsString s))
  | AllFramesAsYAML now => (s, Yaml (allFramesAsYAML s now))
  | AllFramesAsDot now => (s, Dot (allFramesAsDot s now))
  | FrameExists n => (s, Exists (frameExists s n))
  | GetParent n t => (s, Parent (getParentName s n t))
  | GetFrameStrings => (s, Names (getFrameStrings s))
  | LatestCommonTime tg sr e => (s, Latest (getLatestCommonTime s tg sr e))
  | ChainAsVector tg tgt sr srt fx => (s, Chain (chainAsVector s tg tgt sr srt fx))
  end.
Definition is_fixed_lookup (c : call S) : Prop :=
  match c with LookupTransformFixed _ _ _ _ _ => True | _ => False end.

(** ** Histories with the moments at which calls take effect *)
Inductive happening :=
| Seen (e : event S)                                (* a call or a return *)
| Effect (i : nat) (c : call S) (a : answer S).     (* thread i's call c takes effect, with answer a *)
Definition visible (x : list happening) : list (event S) :=
  flat_map (fun y => match y with Seen e => [e] | Effect _ _ _ => [] end) x.
Definition of_thread (i : nat) (y : happening) : bool :=
  match y with
  | Seen (Called j _) | Seen (Returned j _) | Effect j _ _ => Nat.eqb j i
  end.
Definition thread_of (i : nat) (x : list happening) : list happening := filter (of_thread i) x.

(** The buffer after everything that has taken effect in [x] has, one call after the other *)
Definition after (s : core S) (x : list happening) : core S :=
  fold_left (fun s y => match y with Effect _ c _ => fst (alone s c) | Seen _ => s end) x s.
(** Every answer is the one the call gives alone, on what the calls before it left. *)
Definition one_by_one (s : core S) (x : list happening) : Prop :=
  forall before i c a rest, x = before ++ Effect i c a :: rest -> a = snd (alone (after s before) c).

(** What one thread does: it makes a call, which takes effect once, and then returns with the
    answer of that moment; then the next.  (A fixed-frame lookup has no such moment.) *)
Inductive doing := Idle | Waiting (c : call S) | Done (c : call S) (a : answer S).
Inductive orderly (i : nat) : list happening -> doing -> Prop :=
| o_start : orderly i [] Idle
| o_call x c : orderly i x Idle -> orderly i (x ++ [Seen (Called i c)]) (Waiting c)
| o_effect x c a : orderly i x (Waiting c) -> ~ is_fixed_lookup c -> orderly i (x ++ [Effect i c a]) (Done c a)
| o_return x c a : orderly i x (Done c a) -> orderly i (x ++ [Seen (Returned i a)]) Idle
| o_fixed x c a : orderly i x (Waiting c) -> is_fixed_lookup c -> orderly i (x ++ [Seen (Returned i a)]) Idle.

(** [x] accounts for the history [h] of calls and returns on a buffer that began as [s]. *)
Definition accounts (s : core S) (h : list (event S)) (x : list happening) : Prop :=
  visible x = h /\ one_by_one s x /\ forall i, exists d, orderly i (thread_of i x) d.

(** Linearizability: every call takes effect at one moment between its invocation and its return. *)
Definition linearizable (s : core S) (h : list (event S)) : Prop :=
  (forall i c, In (Called i c) h -> ~ is_fixed_lookup c) /\ exists x, accounts s h x.

(** ** The fixed-frame lookup *)
(** The call in two halves: the source side from one state of the buffer, the target side from
    another. *)
Definition in_two_halves (s1 s2 : core S) (target : string) (target_time : time) (source : string) (source_time : time)
    (fixed : string) : res (tmsg S) :=
  _ <- validateFrameId s1 "lookupTransform argument target_frame" target ;;
  _ <- validateFrameId s1 "lookupTransform argument source_frame" source ;;
  _ <- validateFrameId s1 "lookupTransform argument fixed_frame" fixed ;;
  temp1 <- lookupTransform s1 fixed source source_time ;;
  temp2 <- lookupTransform s2 target fixed target_time ;;
  let x := xmul (msg_to_tf2 temp2) (msg_to_tf2 temp1) in
  Ok {| tm_stamp := tm_stamp temp2; tm_frame := target; tm_child := source; tm_trans := xorigin x; tm_rot := xgetRotation x |}.
(** One of the three names was refused. *)
Definition name_refused (s : core S) (target source fixed : string) (r : res (tmsg S)) : Prop :=
  exists arg name cl e, In (arg, name) [("lookupTransform argument target_frame", target);
                                         ("lookupTransform argument source_frame", source);
                                         ("lookupTransform argument fixed_frame", fixed)]%string /\
    validateFrameId s arg name = Throw cl e /\ r = Throw cl e.
(** Every fixed-frame lookup that returned was answered from two moments during the call, the
    second not before the first; or a name was refused that was not known when it was made. *)
Definition fixed_in_halves (s : core S) (x : list happening) : Prop :=
  forall i target target_time source source_time fixed a before during rest,
  x = before ++ Seen (Called i (LookupTransformFixed target target_time source source_time fixed))
      :: during ++ Seen (Returned i a) :: rest ->
  (forall y, In y during -> of_thread i y = false) ->
  (exists m1 m2 m3, during = m1 ++ m2 ++ m3 /\
     a = Transform (in_two_halves (after s (before ++ m1)) (after s (before ++ m1 ++ m2))
           target target_time source source_time fixed)) \/
  (exists r, a = Transform r /\ name_refused (after s before) target source fixed r).

(** The calls that change the buffer, in the order in which they took effect *)
Definition changes (x : list happening) : list (core_op S) :=
  flat_map (fun y => match y with
                     | Effect _ (SetTransform m a st) _ => [OSet m a st]
                     | Effect _ Clear _ => [OClear]
                     | _ => []
                     end) x.
(** Calls carry times that are ros::Times. *)
Definition well_timed (c : call S) : Prop :=
  match c with SetTransform m _ _ => valid_time (tm_stamp m) | _ => True end.
End Spec.
Arguments happening : clear implicits.
Arguments doing : clear implicits.
