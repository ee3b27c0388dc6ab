(* Which mutexes the functions of tf2::BufferCore, tf2_ros::MessageFilter and tf2_ros::BufferServer
   take, in which order, and which shared variables they read and modify while holding which.
   Everything else is abstracted: branches may go either way, loops may run any number of times. *)
From Coq Require Import List Bool Arith.
From Verif Require Import SpecLocks.
Import ListNotations.
Open Scope code_scope.

(* The mutexes.  Buffers, filters, servers, callback queues and the user's own mutexes are numbered. *)
Inductive mutex :=
| FrameMx (b : nat)       (* BufferCore::frame_mutex_, buffer_core.h:324 *)
| CallbacksMx (b : nat)   (* BufferCore::transformable_callbacks_mutex_, buffer_core.h:341 *)
| RequestsMx (b : nat)    (* BufferCore::transformable_requests_mutex_, buffer_core.h:355 *)
| MessagesMx (f : nat)    (* MessageFilter::messages_mutex_, a boost::shared_mutex, message_filter.h:688 *)
| TargetsMx (f : nat)     (* MessageFilter::target_frames_mutex_, message_filter.h:670 *)
| FailureMx (f : nat)     (* MessageFilter::failure_signal_mutex_, message_filter.h:709 *)
| OutputMx (f : nat)      (* message_filters::Signal1::mutex_ of the filter's output (not in /repo): held
                             while the output callbacks run *)
| CallingMx (f : nat)     (* roscpp's calling_rw_mutex for callbacks queued with the filter's id (not in
                             /repo): shared while such a callback runs, exclusive in removeByID *)
| QueueMx (q : nat)       (* roscpp CallbackQueue::mutex_ (not in /repo) *)
| ServerMx (s : nat)      (* BufferServer::mutex_, buffer_server.h:88 *)
| ActionMx (s : nat)      (* actionlib ActionServerBase::lock_ (not in /repo); not held while goal and
                             cancel callbacks run *)
| UserMx (n : nat).       (* a mutex of the user's, used in callbacks *)

(* The shared variables, grouped by the comment that says what protects them. *)
Inductive var :=
| FrameNames (b : nat)      (* frameIDs_, frameIDs_reverse; buffer_core.h:328-330 *)
| FrameData (b : nat)       (* frames_ and the caches, frame_authority_; buffer_core.h:321,332 *)
| CallbackMap (b : nat)     (* transformable_callbacks_ and its counter; buffer_core.h:339-340 *)
| CallbackEntry (b : nat)   (* the callback object inside the map, called through a reference *)
| Requests (b : nat)        (* transformable_requests_; buffer_core.h:354 *)
| RequestCounter (b : nat)  (* transformable_requests_counter_; buffer_core.h:356 *)
| Messages (f : nat)        (* messages_, message_count_; message_filter.h:686-687 *)
| Targets (f : nat)         (* target_frames_, target_frames_string_; message_filter.h:668-669 *)
| ExpectedCount (f : nat)   (* expected_success_count_; message_filter.h:689 *)
| Tolerance (f : nat)       (* time_tolerance_; message_filter.h:704 *)
| QueueSize (f : nat)       (* queue_size_; message_filter.h:671 *)
| CallbackHandle (f : nat)  (* callback_handle_; message_filter.h:672 *)
| Statistics (f : nat)      (* dropped_message_count_, successful_transform_count_ *)
| Incoming (f : nat)        (* incoming_message_count_ *)
| FailureSlots (f : nat)    (* failure_signal_; message_filter.h:708 *)
| Goals (s : nat).          (* active_goals_; buffer_server.h:87 *)

Definition prog := code mutex var.
Definition may_throw : prog := either skip throws.
Definition when (P : Prop) (p : prog) : prog := fun tr o => P /\ p tr o.
Definition lock_guard (l : mutex) (p : prog) : prog := scoped l Exclusive p.

(* ---- BufferCore: internal functions --------------------------------------------------------- *)

(* buffer_core.cpp:899-910 lookupFrameNumber; :929-939 lookupFrameString (throws on a bad id) *)
Definition lookupFrameNumber (b : nat) : prog := rd (FrameNames b).
Definition lookupFrameString (b : nat) : prog := rd (FrameNames b) ;; may_throw.
(* buffer_core.cpp:912-927 *)
Definition lookupOrInsertFrameNumber (b : nat) : prog :=
  rd (FrameNames b) ;; either skip (wr (FrameData b) ;; wr (FrameNames b)).
(* buffer_core.cpp:142-164 validateFrameId: empty or slashed names throw before the table is read *)
Definition validateFrameId (b : nat) : prog := may_throw ;; rd (FrameNames b) ;; may_throw.
(* buffer_core.cpp:311-560 walkToTopParent, :999-1166 getLatestCommonTime: reads of caches, and of
   names for error texts; time arithmetic may throw *)
Definition walk (b : nat) : prog := loop (either (rd (FrameData b)) (rd (FrameNames b)) ;; may_throw).
Definition getLatestCommonTime (b : nat) : prog := walk b.
(* buffer_core.cpp:796-801 canTransformInternal *)
Definition canTransformInternal (b : nat) : prog := lock_guard (FrameMx b) (walk b).

(* ---- BufferCore: queries -------------------------------------------------------------------- *)

(* buffer_core.cpp:595-646 lookupTransform(target, source, time) *)
Definition lookupTransform (b : nat) : prog :=
  lock_guard (FrameMx b)
    (either (either skip (lookupFrameNumber b ;; rd (FrameData b)))
            (validateFrameId b ;; validateFrameId b ;; walk b)).
(* buffer_core.cpp:651-674 lookupTransform with a fixed frame: the names are checked before any lock *)
Definition lookupTransformFixed (b : nat) : prog :=
  validateFrameId b ;; validateFrameId b ;; validateFrameId b ;; lookupTransform b ;; lookupTransform b.
(* buffer_core.cpp:803-840 canTransform; :842-886 with a fixed frame *)
Definition canTransform (b : nat) : prog :=
  either skip (lock_guard (FrameMx b) (loop (lookupFrameNumber b) ;; either skip (walk b))).
Definition canTransformFixed (b : nat) : prog :=
  either skip (lock_guard (FrameMx b) (loop (lookupFrameNumber b) ;; either skip (walk b ;; either skip (walk b)))).
(* buffer_core.cpp:952-983 allFramesAsString, :1168-1228 allFramesAsYAML, :1494-1581 _allFramesAsDot,
   :1368-1407 _frameExists, _getParent, _getFrameStrings, :1583-1650 _chainAsVector,
   buffer_core.h:285-288 _getLatestCommonTime: all under the lock *)
Definition listing (b : nat) : prog :=
  lock_guard (FrameMx b) (loop (either (rd (FrameData b)) (rd (FrameNames b)) ;; may_throw)).
(* buffer_core.h:277-283,290-292 _lookupFrameNumber, _lookupOrInsertFrameNumber, _validateFrameId:
   no lock *)
Definition unlocked_lookup (b : nat) : prog :=
  either (lookupFrameNumber b) (either (lookupOrInsertFrameNumber b) (validateFrameId b)).
(* buffer_core.cpp:185-200 clear *)
Definition clear (b : nat) : prog :=
  lock_guard (FrameMx b) (rd (FrameData b) ;; loop (wr (FrameData b))).

(* ---- BufferCore: requests ------------------------------------------------------------------- *)

(* buffer_core.cpp:1230-1240 *)
Definition addTransformableCallback (b : nat) : prog := lock_guard (CallbacksMx b) (wr (CallbackMap b)).
(* buffer_core.cpp:1256-1271; erasing destroys the callback object *)
Definition removeTransformableCallback (b : nat) : prog :=
  lock_guard (CallbacksMx b) (wr (CallbackMap b) ;; wr (CallbackEntry b)) ;;
  lock_guard (RequestsMx b) (wr (Requests b)).
(* buffer_core.cpp:1273-1326: no lock around the name lookups, the latest-common-time walk and the
   counter *)
Definition addTransformableRequest (b : nat) : prog :=
  either skip
    (lookupFrameNumber b ;; lookupFrameNumber b ;; canTransformInternal b ;;
     either skip
       (either skip (getLatestCommonTime b ;; may_throw) ;;
        either skip
          (wr (RequestCounter b) ;; lock_guard (RequestsMx b) (wr (Requests b))))).
(* buffer_core.cpp:1355-1365 _addTransformsChangedListener, _removeTransformsChangedListener; the
   signal itself (boost::signals2) is thread-safe *)
Definition changedListener (b : nat) : prog := lock_guard (RequestsMx b) skip.
(* buffer_core.cpp:1342-1350 *)
Definition cancelTransformableRequest (b : nat) : prog := lock_guard (RequestsMx b) (wr (Requests b)).

(* ---- One configuration of a program --------------------------------------------------------- *)
Record setup := mkSetup {
  filters : nat;                       (* filters 0 .. filters-1 exist *)
  home : nat -> nat;                   (* the buffer of a filter *)
  queue_of : nat -> option nat;        (* its callback queue; None: callbacks run in the calling thread *)
  output : nat -> prog;                (* what its output callbacks do *)
  failure : nat -> prog;               (* what its failure callbacks do *)
  listener : nat -> prog;              (* what a buffer's _addTransformsChangedListener callbacks do *)
  requests_made : Prop                 (* somebody in this program makes transformable requests *)
}.

Section Setup.
Context (C : setup).

(* ---- MessageFilter -------------------------------------------------------------------------- *)

(* message_filters::SimpleFilter::signalMessage (not in /repo) *)
Definition signalMessage (f : nat) : prog := lock_guard (OutputMx f) (output C f).
(* message_filter.h:649-653 *)
Definition signalFailure (f : nat) : prog := lock_guard (FailureMx f) (rd (FailureSlots f) ;; failure C f).
(* message_filter.h:630-641 messageReady, :617-628 messageDropped *)
Definition messageReady (f : nat) : prog :=
  match queue_of C f with Some q => lock_guard (QueueMx q) skip | None => signalMessage f end.
Definition messageDropped (f : nat) : prog :=
  match queue_of C f with Some q => lock_guard (QueueMx q) skip | None => signalFailure f end.

(* message_filter.h:241-256 setTargetFrames, :259-263 getTargetFramesString, :268-273 setTolerance *)
Definition setTargetFrames (f : nat) : prog :=
  lock_guard (TargetsMx f) (wr (Targets f) ;; rd (Tolerance f) ;; wr (ExpectedCount f)).
Definition getTargetFramesString (f : nat) : prog := lock_guard (TargetsMx f) (rd (Targets f)).
Definition setTolerance (f : nat) : prog :=
  lock_guard (TargetsMx f) (wr (Tolerance f) ;; rd (Targets f) ;; wr (ExpectedCount f)).
(* message_filter.h:431-439 setQueueSize, getQueueSize; :425-429 registerFailureCallback;
   :643-647 disconnectFailure *)
Definition setQueueSize (f : nat) : prog := wr (QueueSize f).
Definition getQueueSize (f : nat) : prog := rd (QueueSize f).
Definition registerFailureCallback (f : nat) : prog := lock_guard (FailureMx f) (wr (FailureSlots f)).

(* message_filter.h:278-295 clear; roscpp's removeByID takes the calling mutex, then the queue's *)
Definition filter_clear (f : nat) : prog :=
  lock_guard (MessagesMx f)
    (removeTransformableCallback (home C f) ;; addTransformableCallback (home C f) ;;
     wr (CallbackHandle f) ;; wr (Messages f) ;;
     match queue_of C f with
     | Some q => lock_guard (CallingMx f) (lock_guard (QueueMx q) skip)
     | None => skip
     end).

(* message_filter.h:297-405 add.  One request (lines 332-364); the tolerance is added to the stamp
   before the second one *)
Definition add_request (f : nat) : prog :=
  rd (CallbackHandle f) ;; addTransformableRequest (home C f) ;; rd (Tolerance f) ;; may_throw.
Definition add (f : nat) : prog :=
  rd (Targets f) ;;
  either skip
    (either (messageDropped f)
       (rd (ExpectedCount f) ;;
        lock_guard (TargetsMx f) (rd (Targets f)) ;;
        loop (add_request f) ;;
        either (messageDropped f)
          (rd (ExpectedCount f) ;;
           either (messageReady f)
             (lock_guard (MessagesMx f)
                (rd (QueueSize f) ;; rd (Messages f) ;;
                 either skip
                   (wr (Statistics f) ;; loop (cancelTransformableRequest (home C f)) ;;
                    messageDropped f ;; wr (Messages f)) ;;
                 wr (Messages f))) ;;
           wr (Incoming f)))).

(* message_filter.h:459-548 transformable, the callback given to the buffer *)
Definition transformable (f : nat) : prog :=
  scoped (MessagesMx f) Upgrade
    (loop (rd (Messages f)) ;;
     either skip
       (wr (Messages f) ;; rd (ExpectedCount f) ;;
        either skip
          (either skip
             (lock_guard (TargetsMx f)
                (loop (rd (Targets f) ;; canTransform (home C f) ;; rd (Tolerance f) ;;
                       either skip (may_throw ;; canTransform (home C f))))) ;;
           promoted (MessagesMx f)
             (wr (Statistics f) ;; either (messageReady f) (messageDropped f) ;; wr (Messages f))))).

(* message_filter.h:596-608 CBQueueCallback::call, run by a spinner: roscpp holds the shared calling
   mutex of the filter *)
Definition deliver (f : nat) : prog :=
  match queue_of C f with
  | Some q => lock_guard (QueueMx q) skip ;;
              scoped (CallingMx f) Shared (either (signalMessage f) (signalFailure f))
  | None => skip
  end.

(* ---- BufferCore: insertion ------------------------------------------------------------------ *)

(* buffer_core.cpp:1412-1479: one pending request *)
Definition test_one (b : nat) : prog :=
  rd (Requests b) ;;
  either skip (lookupFrameNumber b ;; wr (Requests b)) ;;
  either skip (lookupFrameNumber b ;; wr (Requests b)) ;;
  getLatestCommonTime b ;; may_throw ;;
  either skip (canTransformInternal b) ;;
  either skip
    (lock_guard (CallbacksMx b)
       (rd (CallbackMap b) ;; either skip (lookupFrameString b ;; lookupFrameString b)) ;;
     wr (Requests b)).
(* buffer_core.cpp:1411-1491 testTransformableRequests: the lock is released (line 1482) before the
   callbacks run; they are reached through references into the callback map *)
Definition testTransformableRequests (b : nat) : prog :=
  lock_guard (RequestsMx b) (rd (Requests b) ;; loop (when (requests_made C) (test_one b))) ;;
  loop (when (requests_made C)
          (rd (CallbackEntry b) ;; pick (fun f => when (f < filters C /\ home C f = b) (transformable f)))) ;;
  listener C b.

(* buffer_core.cpp:202-287 setTransform *)
Definition setTransform (b : nat) : prog :=
  either skip
    (lock_guard (FrameMx b)
       (lookupOrInsertFrameNumber b ;; rd (FrameData b) ;; either skip (wr (FrameData b)) ;;
        lookupOrInsertFrameNumber b ;; wr (FrameData b) ;; may_throw) ;;
     either skip (testTransformableRequests b)).

(* ---- BufferServer --------------------------------------------------------------------------- *)
(* Server [s] answers from buffer [s]. *)

(* buffer_server.cpp:53-112 checkTransforms; 213-223,201-211 canTransform, lookupTransform *)
Definition server_can (s : nat) : prog := either (canTransform s) (canTransformFixed s).
Definition server_lookup (s : nat) : prog := either (lookupTransform s) (lookupTransformFixed s).
Definition checkTransforms (s : nat) : prog :=
  lock_guard (ServerMx s)
    (loop (rd (Goals s) ;; server_can s ;; may_throw ;;
           either skip (try_ (server_lookup s) ;; may_throw ;; lock_guard (ActionMx s) skip ;; wr (Goals s)))).
(* buffer_server.cpp:114-133 cancelCB *)
Definition cancelCB (s : nat) : prog :=
  lock_guard (ServerMx s)
    (loop (rd (Goals s)) ;; either skip (lock_guard (ActionMx s) skip ;; wr (Goals s))).
(* buffer_server.cpp:135-191 goalCB *)
Definition goalCB (s : nat) : prog :=
  lock_guard (ActionMx s) skip ;; may_throw ;; server_can s ;;
  either (try_ (server_lookup s) ;; may_throw ;; lock_guard (ActionMx s) skip)
         (lock_guard (ServerMx s) (wr (Goals s))).

(* ---- What a client program is made of ------------------------------------------------------- *)
Inductive call :=
| SetTransform (b : nat) | Lookup (b : nat) | LookupFixed (b : nat) | Can (b : nat) | CanFixed (b : nat)
| Listing (b : nat) | Unlocked (b : nat) | Clear (b : nat)
| ChangedListener (b : nat) | AddCallback (b : nat) | RemoveCallback (b : nat) | AddRequest (b : nat) | CancelRequest (b : nat)
| SetTargetFrames (f : nat) | GetTargetFramesString (f : nat) | SetTolerance (f : nat)
| SetQueueSize (f : nat) | GetQueueSize (f : nat) | RegisterFailure (f : nat)
| FilterClear (f : nat) | Add (f : nat) | Deliver (f : nat)
| Check (s : nat) | Cancel (s : nat) | Goal (s : nat).

Definition run (c : call) : prog :=
  match c with
  | SetTransform b => setTransform b | Lookup b => lookupTransform b
  | LookupFixed b => lookupTransformFixed b | Can b => canTransform b | CanFixed b => canTransformFixed b
  | Listing b => listing b | Unlocked b => unlocked_lookup b | Clear b => clear b
  | ChangedListener b => changedListener b | AddCallback b => addTransformableCallback b | RemoveCallback b => removeTransformableCallback b
  | AddRequest b => addTransformableRequest b | CancelRequest b => cancelTransformableRequest b
  | SetTargetFrames f => setTargetFrames f | GetTargetFramesString f => getTargetFramesString f
  | SetTolerance f => setTolerance f | SetQueueSize f => setQueueSize f | GetQueueSize f => getQueueSize f
  | RegisterFailure f => registerFailureCallback f | FilterClear f => filter_clear f
  | Add f => add f | Deliver f => deliver f
  | Check s => checkTransforms s | Cancel s => cancelCB s | Goal s => goalCB s
  end.

(* A thread of the program: any number of calls accepted by [P], exceptions caught between them. *)
Definition client (P : call -> Prop) : prog := loop (try_ (pick (fun c => when (P c) (run c)))).

(* Questions a callback may ask of any buffer. *)
Definition query : prog :=
  pick (fun b => either (lookupTransform b) (either (lookupTransformFixed b)
    (either (canTransform b) (either (canTransformFixed b) (listing b))))).
(* A callback that keeps to queries, its own mutexes (never two at once) around queries, and adding
   messages to filters of a higher number. *)
Definition asks : prog :=
  either query (either throws (pick (fun n => lock_guard (UserMx n) (loop (either query throws))))).
Definition polite (f : nat) : prog :=
  loop (either asks (pick (fun g => when (f < g /\ g < filters C) (add g)))).
Definition well_behaved : Prop :=
  (forall f tr o, output C f tr o -> polite f tr o) /\
  (forall f tr o, failure C f tr o -> polite f tr o) /\
  (forall b tr o, listener C b tr o -> loop asks tr o).
End Setup.

(* Programs that make no transformable requests and keep off the unlocked lookups of buffer_core.h. *)
Definition without_requests (c : call) : Prop :=
  match c with Add _ | AddRequest _ | Deliver _ | Unlocked _ => False | _ => True end.
(* ... and, besides, no fixed-frame lookups *)
Definition without_fixed (c : call) : Prop :=
  match c with LookupFixed _ | Check _ | Goal _ => False | _ => without_requests c end.
