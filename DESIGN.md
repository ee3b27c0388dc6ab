# Formal model of ros/geometry2 in Rocq (Coq 8.16.1)

## 1. What the model is

Executable Gallina functions written function by function from the C++ and Python in `/repo`.
Every model definition carries a comment with the file and lines it models and what it
simplifies.  Layout of `/verif/rocq/theories`:

| files | contents |
|---|---|
| `RosTime`, `Scalar`, `Instances` | `ros::Time`/`Duration` arithmetic; the scalar interface and its instances `RS` (reals) and `F64` (IEEE binary64 with an arbitrary libm) |
| `LinearMath`, `LinearExtra` | tf2/LinearMath: Vector3, QuadWord, Quaternion, Matrix3x3, Transform; impl/utils.h (serialization, tf2Vector4 and endian swaps: `LinearMore`) |
| `Diagonalize` | tf2/LinearMath/Matrix3x3.h diagonalize (Jacobi iteration) |
| `Cache` | tf2/src/cache.cpp, static_cache.cpp |
| `BufferCore` | tf2/src/buffer_core.cpp: setTransform, lookups, canTransform, walks, clear, chains |
| `Requests`, `Interleaving` | transformable requests/callbacks, sequentially and split at lock boundaries |
| `Network` | any number of broadcasters and of nodes with a listener, composed of the models in `TfTopics`; the transport delivers any published message to any node at any time, never or several times |
| `Listeners` | construction, threads and destruction of any number of TransformListeners on one buffer, step by step |
| `ReEntrant` | setTransform calling request callbacks and transforms-changed listeners that call back (one thread); what the user code does is arbitrary; a callback removing itself is assumed not to touch its own state afterwards |
| `CoreThreads` | BufferCore's public calls as programs of lock scopes and single visits to the shared data, with any number of threads |
| `Locks` | which mutexes each public call takes, holds and releases, and which shared fields it touches |
| `Introspection` | _getParent, _frameExists, allFramesAsString/YAML/Dot |
| `MessageFilter`, `FilterThreads`, `ManyFilters` | tf2_ros/message_filter.h on top of `Requests`, sequentially, with any number of threads, and any number of filters on one buffer |
| `GeomMsgs` | tf2_geometry_msgs.h |
| `ForeignGeom` | tf2_eigen, tf2_kdl, tf2_bullet, Python doTransform functions |
| `Single` | IEEE binary32 (`F32`), the conversion of a double to float, and a float's four bytes |
| `ServerMain` | tf2_ros/src/buffer_server_main.cpp: the parameters, the conversion of buffer_size (rostime's DurationBase::fromSec, assumed), what main constructs |
| `LinearMore` | tf2/include/tf2/LinearMath: tf2Vector4, tf2Select, byte order, MinMax.h, the small functions of Scalar.h, serialization |
| `Utils` | tf2/include/tf2/utils.h, the toQuaternion overloads of impl/utils.h |
| `FramesService` | tf2_ros/src/buffer.cpp 42-51, 177-181, tf2_ros/buffer.py 53-75 |
| `SensorMsgs` | tf2_sensor_msgs (C++ and Python), byte level |
| `BufferInterface` | tf2_ros/buffer_interface.h transform family, tf2/convert.h |
| `TfTopics` | TransformBroadcaster, StaticTransformBroadcaster (C++ and Python), TransformListener |
| `TfBuffer` | tf2_ros/buffer.cpp waiting calls |
| `TfAction` | buffer_server.cpp, buffer_client.cpp |
| `PyTime`, `PyCore` | tf2_py/src/tf2_py.cpp: times through Python floats, the bindings of BufferCore |
| `PyRefs` | tf2_py/src/tf2_py.cpp and python_compat.h: objects, attributes and reference counts |
| `PyBuffer`, `PyListener` | tf2_ros/src/tf2_ros/buffer.py waiting calls; transform_listener.py with concurrent callbacks |
| `PyInterface`, `PyClient` | tf2_ros/src/tf2_ros/buffer_interface.py and the registrations of tf2_geometry_msgs, tf2_kdl, tf2_sensor_msgs; buffer_client.py |
| `StaticPublisher` | tf2_ros/src/static_transform_broadcaster_program.cpp (on `TfTopics`); atof, the parameter server, XmlRpcValue conversions and the clock are parameters or assumptions named there |
| `Echo` | tf2_tools/scripts/echo.py (on `PyBuffer`): the angle functions and class Echo; argument parsing, formatting and math.degrees are left out |
| `ViewFrames` | tf2_tools/scripts/view_frames.py on `Introspection`; PyYAML's reading of a plain scalar is a parameter |
| `Spec*` | small specifications used in theorem statements, independent of the model's helpers |
| `Props*` | property theorems only: statement, `exact lemma`, `Print Assumptions`, plus `Example`s showing that the hypotheses are met |
| everything else | lemmas |

### Numbers
* `ros::Time`/`ros::Duration` are nanosecond counts in `Z`.  `Time + Duration` and `Time - Time`
  throw `std::runtime_error` when the result leaves the range of the C++ type (unsigned 32-bit
  seconds, signed 32-bit seconds).  rostime is not in the repository; this behaviour is an
  assumption written into `RosTime.v`, and the exception is a distinct outcome of the model.
* `double` arithmetic is a record `Scalar` (carrier and operations, *no laws*).  All control-flow
  theorems are proved for **every** `Scalar`, so they hold in particular for IEEE doubles with any
  libm.  Two instances: `RS` (Coq's real numbers) for geometric laws, and `F64` (Coq's
  `SpecFloat` binary64, computable, axiom free) for NaN/inf statements and for witnesses.
  Theorems over `RS` say nothing about rounding.
* Handles that can wrap (callback/request handles) wrap in the model; frame ids do not
  (it would take 2^32 frames).

### Errors
`res A` is either a value or a thrown exception (one constructor per tf2 exception class plus
`std::runtime_error`).  Error texts are structured values (which message, which times, which
names) instead of formatted strings, because `%.09f` formatting of doubles is not modelled.
Out-parameters `std::string* error_string` are modelled as in/out values, `None` being `NULL`.
Undefined behaviour (dangling references in the request callbacks, iterating a ragged point
cloud) is a distinct outcome or an arbitrary value, never a convenient default.

### Concurrency
Sequential theorems treat every public call as atomic.  `Interleaving.v` (requests), `FilterThreads.v` (message filter), `CoreThreads.v` (BufferCore),
`TfAction.v` (action server), `PyListener.v` (Python listener), `MessageFilter.v` (callback queue) and `TfBuffer.v`, `PyBuffer.v` (polling)
split the calls at their real lock boundaries and quantify over every schedule; `Locks.v` models
every lock acquisition and release for deadlock and data-race statements.

## 2. Trusted base
* Coq's kernel (and `vm_compute` for witnesses), `coqc` 8.16.1.
* `Print Assumptions` under each theorem.  Discrete theorems: "Closed under the global context".
  Theorems over `R` list only standard-library axioms: `ClassicalDedekindReals.sig_forall_dec`,
  `ClassicalDedekindReals.sig_not_dec`, `FunctionalExtensionality.functional_extensionality_dep`,
  and `Classical_Prop.classic` where the library's trigonometry uses it.  No other axioms.
* Flocq (no axioms of its own) is used for the correspondence between `SpecFloat` and rounded real
  arithmetic in the rounding theorems (C67, C68, C83, C85); nothing of its primitive-float interface is used.
* The faithfulness of the reading of the code (nothing is compiled or run here).
* Behaviour of code outside the repository, written into the model after its published sources:
  rostime range checks and `fromSec`; genpy's `to_sec` rospy's refusal of negative times, the exceptions of its `sleep`, and its one thread per connection; `std::lower_bound`, `std::remove_if`, boost containers; Eigen 3.3, KDL 1.4
  and Bullet 2.8 operations used by the conversion packages; `sensor_msgs::PointCloud2Iterator` and
  `sensor_msgs.point_cloud2`; roscpp's latched topics and callback queues (as events); actionlib
  (as the events it reports); boost mutexes (mutual exclusion, upgrade locks, waiting
  writers may shut out new readers, no fairness); that message_filters::Signal1 holds its mutex while
  it calls, roscpp's CallbackQueue holds a per-id lock while it calls and removeByID waits for it,
  and actionlib releases its lock around user callbacks.

## 3. Properties: how each is modelled and proved, and the result

Status `proved` means that the statement in properties.jsonl is proved.  Where the natural claim is
false of the code, the statement says what does hold and a theorem with suffix `_refuted` exhibits
the counterexample.

| id | property | method | file | result |
|---|---|---|---|---|
| C01 | Per-frame history is sorted, duplicate-free and inside the storage window | Invariant of the per-frame list under insert/clear, lifted to every history by induction. | PropsCache.v | proved: Every history of insert/clear, every storage time, any scalar arithmetic. |
| C02 | Exact acceptance rule and exact retained set of a frame's history | Exact one-step characterisation of insert, and refinement of a whole history to "first offer per stamp wins, inside the window of the newest". | PropsCache.v | proved: One-step exact rule and whole-history characterisation; the overflowing-stamp case is covered separately. |
| C03 | Out-of-order delivery converges | Corollary of C02: a strictly sorted list is determined by its elements. | PropsCache.v | proved: Samples with pairwise distinct stamps; for equal stamps the first wins (C02). |
| C04 | A lookup at a stored stamp returns that sample | findClosest characterised by list membership; slerp at ratio 0 over R; in binary64 the error theorem of slerp at ratio 0 (RoundHistory.v, stored_stamp_64); binary64 witness where 0*inf appears. | PropsCache.v, PropsInterp.v | proved: Exact over the reals for every stored stamp; exact in any arithmetic for the newest and oldest sample and for time zero; for interior samples in binary64 exact translation and 332 units of roundoff on the rotation, for finite samples and an accurate libm. The stronger claim of bit-exactness for interior samples is refuted by C04_interior_stamp_exact_refuted (the code interpolates at ratio 0; 0*inf is NaN). |
| C05 | No extrapolation | getData succeeds iff the time is between oldest and newest; lists as spec. | PropsCache.v | proved: Any arithmetic. |
| C06 | Interpolation uses exactly the two bracketing neighbours | lower_bound modelled as partition point; bracketing neighbours characterised. | PropsCache.v | proved: Any arithmetic. |
| C07 | Interpolated pose is a valid pose between the neighbours | slerp over R: trigonometric identities, constant angular rate; translation is a convex combination. | PropsCache.v | proved: Over the reals. |
| C08 | Static transforms hold at every time and the last one set wins | Static cache; simulation over every later history. | PropsCore.v | proved: Any arithmetic, every later history without a usable message for the frame. |
| C09 | Frame kind is fixed by the first accepted transform | Invariant over operation histories. | PropsCore.v | proved: Any arithmetic, every later history. |
| C10 | setTransform validates its input exactly | Decision characterised as an iff, generic in the scalar; instance facts for R and binary64. | PropsAngles.v, PropsCore.v | proved: Exact acceptance condition in any arithmetic, with the numeric test restated over the reals and for NaN in binary64. Side conditions: stamp + storage time representable (else C29), child not the reserved name NO_PARENT. Also recorded: infinite translations pass the test. Conversely, in binary64 a finite rotation within 0.0099 passes (C10_nearly_unit_rotation_is_well_formed). |
| C11 | A rejected transform does not affect any answer | Simulation between the states before and after the rejected call (names may be added). | PropsCore.v | proved: All three queries, up to the frame listing inside a loop error text. |
| C12 | Frame ids are a stable bijection with names | Invariant: two name tables are inverse, ids only grow. | PropsCore.v | proved: Includes _getFrameStrings and the exclusion of the reserved id 0. |
| C13 | canTransform agrees with lookupTransform | Relational proof over the walk with the two accumulators of the code. | PropsLookup.v | proved: Equivalence before 2038; both directions beyond, with a witness of the divergence. |
| C14 | canTransform agrees with lookupTransform through a fixed frame | Corollary of C13 and C24's success condition. | PropsLookup.v | proved: Before 2038. |
| C15 | Lookup of a frame relative to itself | Case analysis of lookupTransform, all states. | PropsLookup.v | proved: Stamp at time zero stated for known names. |
| C16 | The returned header is what was asked for | Case analysis of lookupTransform, all states. | PropsLookup.v | proved: Any arithmetic, every reachable state. |
| C17 | Asking for the latest equals asking at the returned stamp | Walk and latest-common-time results combined. | PropsLookup.v | proved: Any arithmetic: the very same message. |
| C18 | Latest common time is the oldest of the newest stamps along the path | Spec: nearest common ancestor over newest links; induction on walks. | PropsLookup.v | proved: A newest stamp equal to ros::TIME_MAX counts as none, as in the code. |
| C19 | Lookup returns the composition of the links on the path | Spec: relations Up/tree path of links; induction on walks; group laws over R. | PropsReal.v | proved: Over the reals with unit stored rotations, preserved by every history of unit messages; the exact product in any arithmetic. Lookups at the resolved stamp, so time zero is covered. |
| C20 | Lookup succeeds exactly when a common ancestor exists | Same; both directions. | PropsLookup.v | proved: Before 2038 (see C29). |
| C21 | Inverse lookups cancel and chained lookups compose | Corollaries of C19/C20 over R. | PropsReal.v | proved: Over the reals with unit stored rotations; time zero for the inverse; refuted in binary64 for accepted non-unit quaternions. |
| C22 | Every lookup terminates, loops are reported | Walks are structurally recursive on the code's own depth bound; cyclic/deep chains give the error. | PropsLookup.v | proved: Depth bound stated for the source and for the target chain. |
| C23 | Failure classification | Exact case theorem on the walk. | PropsLookup.v | proved: Exact conditions at nonzero times; time zero resolves through C54/C17. |
| C24 | Fixed-frame lookup composes two ordinary lookups | Model of the six-argument lookup; quaternion/matrix round trip over R. | PropsReal.v | proved: Success condition and header in any arithmetic; the motion over the reals up to quaternion sign. |
| C25 | Internal ids and arrival order are invisible | Simulation up to renaming of ids; refinement to per-frame histories. | PropsCore.v | proved: Up to the frame listing inside a loop error text. lookup(f,f,0) of an unknown f excluded: it reads frame 0. |
| C26 | setTransform affects only the child frame | Frame lemma on states, then on walks. | PropsCore.v | proved: At nonzero times for names whose upward chain does not pass through the child. The composition part is C19. |
| C27 | clear() forgets dynamic data only | Simulation with the buffer rebuilt from static messages only. | PropsCore.v | proved: Any arithmetic, every reachable state. |
| C28 | Leading slash handling | String lemmas; witness for two leading slashes. | PropsCore.v | proved: With the refutation for two leading slashes. |
| C29 | Before 2038, time arithmetic never escapes as a non-tf2 exception | Bounds propagated through every time operation; witnesses beyond. | PropsLookup.v | proved: With witnesses for setTransform and lookupTransform beyond the range. |
| C30 | Transformable requests: exactly the due ones are settled, each at most once | Request list model; settled requests characterised as a permutation; whole-history at-most-once. | PropsRequests.v | proved: Exact settlement (as permutations, any arithmetic) and whole-history at-most-once. C30_time_range_refuted shows the range hypothesis is needed: one request near TIME_MAX makes setTransform throw and due requests vanish silently. |
| C31 | What a transformable callback receives | Model keeps the slot each stored reference designates. | PropsRequests.v | proved: By-value arguments proved right; the by-reference time argument is proved never to designate the request's own time (C31_time_is_never_the_requests_own_refuted, with a concrete wrong delivery in C31_example). The result argument is a reference to a destroyed local; modelled as unavailable. |
| C32 | Cancelled or deregistered requests never fire | History induction; witness with a symbolic history of 2^32 calls. | PropsRequests.v | proved: Proved for handles below 2^32; C32_cancel_above_32_bits_refuted gives the history of 2^32+3 calls in which the cancelled request fires and request 1 is removed instead. |
| C33 | Request and callback handles are unique | Invariant with explicit wrap-around; witness with a symbolic history. | PropsRequests.v | proved: Proved up to wrap-around; C33_wrap_around_refuted is the 2^64-1 request history with a duplicate handle. |
| C34 | Requests made while transforms arrive concurrently | Small-step model split at the lock boundaries, arbitrary schedules; tied back to the sequential model. | PropsInterleaving.v | proved: Small-step model at lock boundaries, arbitrary interleavings; tied to the sequential model by the two C34_uninterrupted_ theorems; lost wake-up exhibited by C34_lost_wakeup_refuted. |
| C35 | The frame chain is the tree path, except when it turns at the source's non-root parent | Tree path as spec; exact result of the pruning code in each shape. | PropsChain.v | proved: Positive theorems for every shape except the one in which the code is wrong; that shape is characterised exactly (C35_turning_at_parent_lists_up_to_root) and a binary64 witness refutes the unrestricted claim. |
| C36 | Quaternion algebra | Ring/field identities over R. | PropsLinear.v | proved: Over the reals. |
| C37 | Quaternion to matrix conversion is a rotation and a homomorphism | Orthogonality/determinant identities; four branches of getRotation. | PropsLinear.v | proved: Over the reals; includes the refutation that matrix and quatRotate agree for non-unit quaternions. |
| C38 | Rigid transform algebra | Algebra over R. | PropsLinear.v | proved: Over the reals. |
| C39 | Roll-pitch-yaw conventions agree | Trigonometry over R, case analysis on gimbal lock. | PropsAngles.v, PropsLinear.v | proved: Over the reals (no signed zeros); gimbal lock characterised and refuted. setRPY also in binary64. |
| C40 | tf2::getYaw / getEulerYPR agree with Matrix3x3 | Exact condition, witness near the poles. | PropsLinear.v | proved: Over the reals; exact condition for correctness, refuted near the poles. |
| C41 | doTransform on points and vectors is the rigid motion | R instance of the models of doTransform, with input/output as memory cells. | PropsGeom.v | proved: Over the reals for unit (resp. nonzero) quaternions, with input/output as possibly equal memory addresses; headers for every scalar; NaN witness for the zero quaternion. |
| C42 | doTransform on quaternions, poses and transforms is composition | As C41. | PropsGeom.v | proved: Over the reals; orientation up to quaternion sign. |
| C43 | Covariance transformation | 6x6 blocks; all 36 entries. | PropsGeom.v | proved: All 36 entries, over the reals. |
| C44 | Wrench transformation is physically consistent | As C41 plus cross-product identities. | PropsGeom.v | proved: Over the reals. |
| C45 | Message conversions round-trip | Definitional round trips generic in the scalar; transforms over R. | PropsGeom.v | proved: Exact round trips for every scalar; transforms over the reals; child_frame_id loss shown by C45_child_frame_refuted. |
| C46 | MessageFilter reports each message at most once, and as ready only when transformable | Filter + buffer state machine with ghost message numbers; history invariants. | PropsFilter.v | proved: Messages are identified by the position of their add() call (ghost number, tied down by C46_messages_are_numbered_by_add). Histories include other clients of the buffer, callback queue or not, any value read through the dangling result reference. |
| C47 | MessageFilter queue is bounded and drops the oldest | Invariant and one-step characterisation. | PropsFilter.v | proved: C47_shrinking_refuted: three messages stay queued under queue size 1. |
| C48 | MessageFilter never strands a message while its configuration is left alone | Invariant linking queue entries to pending requests under "calm" histories; five witnesses outside. | PropsFilter.v | proved: Proved for calm histories (definition in SpecFilter.v); five _refuted witnesses show what happens outside them. |
| C49 | BufferServer answers every goal exactly once, at the right time, with the buffer's own answer | State machine with the two-step goalCB; invariants over every interleaving. | PropsAction.v | proved: All interleavings of goalCB (two steps), cancelCB and checkTransforms; actionlib is modelled as the events it reports. Three refuted corners, each with a theorem. |
| C50 | BufferClient gives the answer a local buffer would give | Composition of client model and server model. | PropsAction.v | proved: C++ BufferClient composed with the server model of C49; actionlib's client is an arbitrary function from goals to replies whose successful replies come from the server. |
| C51 | StaticTransformBroadcaster republishes one latest transform per child | Fold over calls, specified by "last transform per child, in order of first appearance". | PropsTopics.v | proved: C++ broadcasters over every call sequence; the latched-topic transport itself (roscpp) is modelled as 'a late subscriber first receives the last message published'. Refutation witnesses for the Python class and for malformed transforms. |
| C52 | TransformListener clears exactly on backwards time and otherwise forwards everything | State machine over arrivals and clock; calls made to the buffer characterised exactly. | PropsTopics.v | proved: TransformListener callback over every sequence of arrivals; subscription queues and the spinner thread are not modelled (a sequence of arrivals in processing order is). Two refuted corners: uncaught rostime range error, and backward jumps of at least 2^31 s. |
| C53 | Waiting canTransform/lookupTransform of tf2_ros::Buffer | Poll loop as an inductive relation over an arbitrary environment trace. | PropsWait.v | proved: C++ Buffer (the Python one is C71); the environment is an arbitrary sequence of instants, one per observation. The length of a sleep (timeout*0.01 in double) is not modelled: sleeps take as long as the environment says. |
| C54 | When a time-zero lookup succeeds | Exact iff via C18 and C20. | PropsLookup.v | proved: The naive claim (connected implies success) is refuted; the exact condition is proved. |
| C55 | Transforming a PointCloud2 moves every point and touches nothing else | Byte-level iterator model; list-of-points spec. | PropsCloud.v | proved: Byte-level model, any float encoding; exact motion over the reals for unit quaternions. Limits proved: missing field leaves a mislabelled copy, ragged data is undefined behaviour, Python ignores the field names (C55_python_layout_refuted). |
| C56 | Matrix3x3 inverse and products | Field identities over R. | PropsLinear.v | proved: Over the reals. |
| C57 | MessageFilter::clear forgets | Invariants of C46/C48 after clear. | PropsFilter.v | proved: Covers both delivery modes (direct and through a callback queue). |
| C58 | What a buffer reports about itself is what it holds | Listings characterised by the set of accepted messages. | PropsIntro.v | proved: Printed text is represented by its content before formatting to 3 decimals. Refuted corner: after a message for a child named NO_PARENT, _getParent of unknown names returns that frame's parent. |
| C59 | doTransform is safe in place | Generic in the scalar: equality of the two memory states. | PropsGeom.v | proved: For every scalar type and every aliasing of the references. |
| C60 | tf2_geometry_msgs, tf2_eigen, tf2_kdl, tf2_bullet and the Python doTransform functions agree | R instance; each library's functions related to the same rigid motion; witnesses for disagreements. | PropsForeign.v | proved: Over the reals for unit quaternions; Eigen, KDL and Bullet operations are written after their published sources (trusted). The disagreements found are _refuted theorems: Python wrench, Eigen quaternion, non-unit quaternions. |
| C61 | Buffer::transform carries data to the target frame, and its round trips and hops cancel | Generic in the interface and the scalar for effects; R for motions; instances for the BufferCore lookups. | PropsInterface.v | proved: Writes/exceptions/frames for every scalar and every interface; round trips, hops and fixed-frame composition over the reals with unit samples (poses up to quaternion sign). PointCloud2 is not an instance (its doTransform can throw); waiting is C53. |
| C62 | Conversions to Eigen, KDL and Bullet types and back lose nothing | Definitional generic in the scalar; R for matrix-based types. | PropsForeign.v | proved: Exact conversions for every scalar; frames/poses/transforms over the reals. C62_header_refuted: the transform conversions drop header and child frame. |
| C63 | Calls from several threads never deadlock | Trace semantics of lock operations; a rank on mutexes that every call respects, progress by picking the highest-ranked wait; three witness schedules, executed by vm_compute, for the refuted cases. | PropsLocks.v | proved: Model: mutexes and shared variables only, each function as the set of its lock/access traces (every branch allowed), so it over-approximates the runs; thread bodies are finite. message_filters::Signal1, roscpp CallbackQueue, actionlib and boost::shared_mutex are modelled from their documented behaviour (not in /repo). |
| C64 | Which shared data several threads may touch without a data race | Lockset discipline checked over all traces, lifted to all interleavings by invariant; witness schedules for the racy variables. | PropsLocks.v | proved: Same model as C63. Memory accesses are grouped into named shared variables; a race is two threads about to access one variable, one writing. |
| C65 | Vector3 and Matrix3x3 helpers compute what their names say | R instance: algebra, Lagrange identity, Cauchy-Schwarz; OpenGL round trip generic in the scalar. | PropsExtra.v | proved: Real arithmetic, except the OpenGL round trip (any scalar) and the binary64 witness. |
| C66 | Angles between rotations and shortest arcs | R instance: axis-angle representation, uniqueness via injectivity of the matrix map up to sign, minimality by factoring through a rotation fixing v. | PropsExtra.v | proved: Real arithmetic; fmod is C's remainder on reals and TF2SIMD_2_PI is taken as 2*pi. |
| C67 | Rounding error of a lookup in double precision | SpecFloat operations identified with Flocq's correctly rounded ones; standard rounding model; Euclidean-norm error bounds for quaternion product, rotation and addition; induction over the chain of links (RoundChain.v), then the three shapes of an answer (RoundLookup.v) | PropsRounding.v | proved: Binary64 is Coq's SpecFloat; its operations are proved equal to Flocq's rounded real operations (FloatErr.v; no float axioms). Error analysis by induction over the climb. The links themselves (stored or interpolated samples) are taken as given here. |
| C68 | Interpolation in double precision stays on the line and the arc, and lookups never return NaN | relative error analysis of length2, dot, sqrt, acos, sin, reciprocal in slerp; Lipschitz bound of the weights sin(ax)/sin(x) in cos(x) (SlerpWeights.v); inversion of the norm test of setTransform over all doubles (RoundAccept.v); induction over histories lifts accepted messages to links (RoundHistory.v) | PropsInterp.v | proved: accurate_libm is a hypothesis about the C library (sin on |x|<=2 and acos on [-1,1] within 4*2^-53 relative error, 2^-1075 absolute at underflow); C68_accurate_libm_example shows correctly rounded functions meet it. |
| C69 | What happens to a stamp that passes through a Python float | SpecFloat identified with Flocq rounding; seconds below 2^23 leave 2^-30 spacing so the nearest-nanosecond step undoes the rounding; monotonicity of rounding; grid argument for idempotence (PyTimeProofs.v) | PropsPy.v | proved: genpy's to_sec and rostime's fromSec are outside the repository; PyTime.v states their arithmetic (binary64 SpecFloat) and the theorems quantify over every time. |
| C70 | A Python buffer is the C++ buffer at float-rounded times | simulation: each Python call is a C++ call on a restamped message; invariant that every stored stamp is a fixed point of the float trip and lies below 2^31 s (PyCoreProofs.v) | PropsPy.v | proved: Any Scalar. 2038 bound: beyond it C70_crash_from_2038_refuted. Duck-typed arguments, reference counts and NUL bytes in names are not modelled. |
| C71 | Python queries with a timeout: current answers, no needless waiting | induction over the rounds of the polling loop against an arbitrary world; answers via C70's equivalence of can_transform and lookup (PyWaitProofs.v) | PropsPyWait.v | proved: rospy.sleep is an arbitrary outcome of the world (returns or raises); the length of sleeps is up to the world. |
| C72 | The Python TransformListener under concurrent callbacks | invariant over schedules (induction from the end): a log of labelled buffer calls whose projection on each message is a prefix of its transforms (PyListenerProofs.v); the sequential case by direct simulation | PropsPyTopics.v | proved: buffer calls are atomic (frame_mutex_); thread per connection is rospy behaviour and the schedules quantified over are a superset of it. |
| C73 | Python: transform asks once and moves the object; convert | the registries as dictionaries, import as a sequence of registrations; case analysis over classes; values via C55 and C60 (PyInterfaceProofs.v) | PropsPyInterface.v | proved: objects are values with their class; registered callbacks are functions; deepcopy returns an equal object; values over the reals, the rest for any arithmetic. |
| C74 | Python: a remote buffer answers like a local one | the reply mapping is compared clause by clause with the C++ client, then C50's theorem about server runs and C70's about local lookups apply | PropsPyClient.v | proved: the action client is an arbitrary function from goals to replies; served says that successful replies come from the server. |
| C75 | static_transform_publisher publishes exactly the transform asked for | case analysis over the argument list and the nested parameter (StaticPublisherProofs.v); listeners via C08 and a lookup of a frame in its own parent that needs no depth bound (LookupDirect.v); doubles via rounding error analysis (RoundRPY.v) | PropsAngles.v, PropsStaticPublisher.v | proved: atof, the parameter server and the clock are arbitrary functions; XmlRpcValue's conversions as in xmlrpcpp. C75_every_listener_has_it is over the reals (exact numbers), C75_angles_are_accepted in binary64 for an accurate sin and cos. |
| C76 | echo.py prints the buffer's transform, and angles that are its rotation | angles via cos/sin of atan2 and the cofactors of a rotation matrix (EchoProofs.v); one attempt by C70/C71's lemmas about immediate lookups; sessions by induction over the timer's calls | PropsEcho.v | proved: Angles over the reals only (no rounding). rospy.Time(float), rospy.Duration(float) are arbitrary functions; that a rospy.Timer thread ends when its callback raises is assumed about rospy. Three parts of what a user expects are refuted with witnesses. |
| C77 | view_frames draws the tree the buffer holds | C58's description of the rows, then induction over the drawing loop (ViewFramesProofs.v); absence of a root gives arbitrarily long climbs | PropsViewFrames.v | proved: The content of the YAML text, not its bytes; what PyYAML makes of an unquoted key is a parameter. Names that break YAML's syntax are outside the model. Three expectations are refuted with witnesses. |
| C78 | diagonalize finds eigenvalues and eigenvectors of a symmetric matrix | one rotation: algebra of the 2x2 block with the residual of the approximate angle (DiagStep.v); then induction over the loop with a Frobenius-norm invariant (DiagProofs.v) | PropsDiag.v | proved: Over the reals (rounding not counted), except symmetry, which holds for every arithmetic. Two documented claims are refuted with witnesses. |
| C79 | Error messages tell the truth | induction on the two walks: a successful step leaves the text alone, the failing one writes the reason of the frame it stops at (ErrorProofs.v) | PropsErrors.v | proved: Texts are structured values (which text, with which names and stamps); rendering to characters is not modelled. The two exceptions are shown as _refuted theorems. |
| C80 | Message filter with concurrent calls | invariant over all steps: census of message numbers, lock holders, per-thread progress; lexicographic measure for termination; step-by-step simulation for lone calls (FilterThread*.v) | PropsFilterThreads.v | proved: Steps are split at lock boundaries and between accesses to unprotected members; sequentially consistent single accesses (C64 lists the data races). The two exceptions are _refuted theorems. That a queued message is eventually reported is not claimed here (C48_lost_wakeup_refuted). |
| C81 | New data does not rewrite the past | invariant of a history under newer insertions (suffix-closed, nothing slips in between); lookupTransform proved equal to a name-level function of the links at t alone; subset of links => same answer via C19 (Past*.v) | PropsPast.v | proved: Bitwise for any arithmetic between stored stamps; at stored stamps over the reals (the binary64 exception is C81_newest_stamp_refuted). The two one-sided theorems (data pushed out, late data) are over the reals. |
| C82 | Concurrent calls on one buffer behave as if made one after the other | small-step machine of lock scopes and single visits to the shared data; invariant that a scope in progress plus what is left of it equals the call made alone on the state at its lock; ghost effect placed at the unlock (CoreThread*.v) | PropsCoreThreads.v | proved: Visits to the shared data are atomic and nobody listens for changes (requests: C34, C80). The fixed-frame lookup is not atomic: C82_fixed_lookup_refuted is an execution with a torn answer; its unlocked check of the names is a data race in C++ (C64). No deadlock and termination are for every interleaving; fairness of the scheduler is not needed. |
| C83 | How accurate transformed points, vectors and quaternions are in binary64 | entrywise error of the matrix built from the quaternion (with its division by the squared length), then of the product with the vector, in the Euclidean norm; added to the lookup bound of C67 through the distance between the exact and the computed transform (RoundApply.v, RoundPoint.v) | PropsApply.v | proved: IEEE 754 binary64, round to nearest even, no fused multiply-add. Poses are C85; wrenches and covariances are not bounded. |
| C84 | Several message filters on one buffer | invariant of the world: every filter is calm on the shared buffer, callback handles (live and left behind) are pairwise different, requests of dead handles are gone; a step of one filter is a sequence of buffer calls under its own handle, which the others see as calls of other clients; the callback loop is commuted filter by filter (ManyProofs.v, ManyHistory.v) | PropsManyFilters.v | proved: Each public call is one atomic step (threads within one filter: C80). The two _refuted theorems show what is not independent of the other filters. |
| C85 | How accurate transformed poses and composed transforms are in binary64 | entrywise error of the matrices and of their product; the pivot chosen by getRotation is large, so the recovered quaternion inherits the error of the entries times a constant; induction over the transforms with the unit sphere as invariant (RoundPose.v, RoundCarry.v, RoundThrough.v) | PropsPose.v | proved: IEEE 754 binary64, round to nearest even, no fused multiply-add; square root correctly rounded. |
| C86 | User code called from inside setTransform, and the transforms-changed signal | small-step machine with a stack of pending work; invariants over all runs; a grammar of complete logs, proved by induction on the length of the log (ReEntrantProofs.v) | PropsReEntrant.v | proved: One thread. The use of removed callbacks and the effect of throwing callbacks are stated as the code has them (C86_..._refuted are the witnesses). |
| C87 | End to end: what a node looks up is what was broadcast | invariant: all that is published or received was sent, every sample stored was received; provenance of a link by cases on the cache query; agreement: the history of a frame depends only on the set of transforms received (NetworkProofs.v) | PropsNetwork.v | proved: The agreement theorems assume consistent publishers and clocks that do not jump back; the _refuted theorems show both are needed. The answer to lookupTransform may differ in the frame named in the error text of a loop (same_answer). |
| C88 | Transform listeners come and go, several on one buffer | small-step model of listener threads; invariants: log replays to the buffer, per-listener log plus rest of the current message is what is owed; variant function for the destructor; agreement through NetworkProofs.agreement (ListenersProofs.v) | PropsListeners.v | proved: Assumes in-range stamps and clock readings less than 68 years apart where exceptions matter (calm). roscpp is represented by queues from which messages may get lost; callAvailable() handles the messages queued when it is called; the 10 ms poll is not timed. |
| C89 | Looked-up poses move no faster than the data | Lipschitz bound of one interval (slerp_rate, chord <= arc), triangle inequality along the stored samples, induction over the links up and down (MotionProofs.v) | PropsMotion.v | proved: Over the real numbers; what binary64 adds is bounded in C67 and C68. The frames on the path keep one parent in the stored samples, and the lookups at both times pass the same frames. |
| C90 | How much a buffer keeps is bounded by its cache time | the window and distinctness invariants of a history (C01-C03) give NoDup stamps in an interval; pigeonhole on stamp/d; frame names by induction over the history (MemoryProofs.v) | PropsMemory.v | proved: Counts samples, frames and requests, not bytes of the allocator. That requests are unbounded is C90_pending_requests_refuted. |
| C91 | Python objects and reference counts in the bindings | a heap of reference-counted objects; every C-API step shown to preserve contents and soundness, forwards and backwards (RefsProofs.v, RefsMain.v); the making of messages by symbolic evaluation over an arbitrary heap, of lists by induction (RefsConvert.v) | PropsRefs.v | proved: That calls are balanced is refuted (C91_balance_refuted); what CPython functions do is the assumption stated in PyRefs.v. |
| C92 | How accurate transformed wrenches and covariances are | forward error analysis of the cross product, of both matrix products entry by entry (RoundWrench.v, RoundCov.v), with the exact values of C43 and C44 | PropsWrench.v | proved: That the transform of a symmetric covariance is symmetric is refuted (C92_exact_symmetry_refuted). |
| C93 | How accurate transformed point clouds are | binary32 operations and the narrowing conversion as rounded real operations (SingleErr.v, SingleOps.v), error analysis of the unnormalised matrix and of one row (RoundCloud.v), the bytes by Flocq's split/join of bits, over C55's description of the loop | PropsSingle.v | proved: Sums in the order written in the model; Eigen's vectorised order and fused multiply-add are not modelled. A NaN is written with the default payload. |
| C94 | End to end: what a remote client is told is what was broadcast | the server's run split where the goal comes in (nothing was reported for it before), C50's argument on the rest, C87 on the network's state at that moment, broadcasts only ever added | PropsRemote.v | proved: actionlib and the topic transport enter as 'served' (C50) and as arbitrary deliveries (C87). |
| C95 | End to end: a message filter's ready messages can be transformed, by what was broadcast | the buffer under a filter is a history of setTransform and clear() calls with broadcast messages; C87's origin of links for any such history; C46 for availability, C30 and C13 from there to lookupTransform | PropsFilterNet.v | proved: With a callback queue the guarantee fails (C95_queued_callback_refuted); frame names with several leading slashes are excluded. |
| C96 | The buffer_server program keeps transforms for as long as it is told to | fromSec through floor, subtraction and multiplication rounding (as for Python times); the negative case by an invariant (every history is empty) over all calls, and both walks end at once; C94 for the rest | PropsServerMain.v | proved: That the program refuses a negative size is refuted (C96_negative_size_refuted). ros::Duration(double) and NodeHandle::param are dependencies; ServerMain.v states what is assumed of them. NaN and infinite sizes are undefined behaviour (UB in the model). |
| C97 | The remaining LinearMath helpers do what their names say | masks and bytes by the arithmetic of Z; the axes by cases; tf2Atan2Fast by the mean value theorem on both sides of pi/4 r - atan r; floats by Flocq's rounding (widening is exact, narrowing a float is the identity) | PropsLinearMore.v | proved: That tf2Select is total and that tf2GreaterEqual is >= are refuted (C97_select_total_refuted, C97_greater_equal_refuted). Byte order: a little-endian machine with 4-byte floats and 8-byte doubles. The scalar and axis functions are over the real numbers; serialization is over binary64/binary32. |
| C98 | Yaw, pitch and roll do not depend on the type; the identity is the identity | the overloads reduce to the four numbers; planar rotations through half angles and atan2; the identity's entries by computation, then 1*x + 0*y + 0*z + 0 is exact | PropsUtils.v | proved: The first theorem holds over every arithmetic (so also doubles), the angles are over the reals, the identity over binary64 for every libm. |
| C99 | Which buffer answers tf2_frames | an invariant between the history and the state: who serves, who is under construction and what each buffer holds | PropsFramesService.v | proved: Assumes of roscpp and rospy (not in /repo): one server per name and node; a second advertise fails (C++: empty handle, Python: ServiceException); roscpp shuts a service down with its handle, rospy keeps it. Witnesses of what is refuted: the _refuted theorems. |
| C100 | Minimum, maximum, clamping and axes in doubles; NaN | a comparison of finite doubles is the comparison of the real numbers they stand for; infinities and NaN by cases | PropsClampDoubles.v | proved: Over binary64 for every libm. What acos and asin return is libm's. The _refuted theorems show what NaN breaks. |

## 4. Places where the code does not do what one would expect

Each is a theorem (suffix `_refuted`, or the exact condition in the named theorem).

1. Looking up exactly at a stored interior stamp interpolates at ratio 0 instead of returning the
   sample; with infinite components the answer is NaN, with finite ones the rotation is only close (C04).
2. setTransform accepts infinite translations (C10) and quaternions of squared norm up to 1.01; for
   such quaternions inverse lookups do not cancel (C21), matrices and quatRotate differ (C37).
3. A rejected message may still register its parent frame's name (C11).
4. Beyond 2^31 s (year 2038 differences) setTransform and lookupTransform leak
   `std::runtime_error`; canTransform may say true where lookupTransform throws (C13, C29).
5. A time-zero lookup can fail although the frames are connected (C54).
6. A frame named "//x" is accepted and can never be queried (C28); a child named "NO_PARENT"
   writes the slot of the reserved id, after which unknown frames have a parent (C58).
7. `_chainAsVector` lists the chain up to the root when the path turns at the source's non-root
   parent (C35).
8. Request callbacks receive a dangling reference to somebody else's time and to a destroyed result
   (C31); cancelling handles above 2^32 removes the wrong request (C32); handles repeat after 2^64-1
   requests (C33); a request near TIME_MAX makes every later setTransform throw (C30); a transform
   arriving between the test and the registration of a request is missed (C34).
9. Matrix3x3::getEulerYPR returns yaw = roll = 0 at gimbal lock (C39); impl/utils.h's getEulerYPR
   is wrong when |sin pitch| is at least 0.99999 (C40).
10. A zero quaternion silently produces NaN in doTransform (C41); TransformStamped conversions drop
    child_frame_id (C45, C62); transforming a TransformStamped by value loses its child frame (C61).
11. MessageFilter: shrinking the queue size does not shrink the queue (C47); reconfiguration, the
    dangling result and a race each strand or drop transformable messages; a refused message leaks
    its requests; stamps near the range end throw out of add (C48).
12. BufferServer: one goal with a range error starves all others, a timeout overflow loses a goal, a
    cancel that overtakes goalCB is lost (C49).  BufferClient: padding overflow throws (C50).
13. The Python StaticTransformBroadcaster latches only its last call; the C++ one lets a malformed
    transform replace a good one (C51).
14. TransformListener: a range error loses the rest of the message; a backward jump of 2^31 s makes
    the listener deaf (C52).
15. Waiting calls: a paused clock blocks forever; without a dedicated thread canTransform(timeout)
    is false although the transform is available (C53).
16. doTransform for PointCloud2 leaves a mislabelled copy when a field is missing; ragged data is
    undefined behaviour; Python moves the first three values whatever they are called (C55).
17. The Python wrench transform omits the lever arm; tf2_eigen conjugates instead of composing
    quaternions; only some packages normalise non-unit quaternions (C60).
18. An output callback of a MessageFilter that adds to its own filter, or sets a transform another
    queued message waits for, deadlocks on messages_mutex_; MessageFilter::clear() and a running
    queued callback that adds a message wait for each other (C63).
19. Data races: the fixed-frame lookupTransform validates names without frame_mutex_;
    addTransformableRequest reads frames and increments the handle counter unlocked; a callback is
    called through a reference into a map another thread may erase from; the settings of a
    MessageFilter and its incoming counter are touched unlocked (C64).
20. fromMsg(PoseWithCovarianceStamped) calls a fromMsg overload that is declared nowhere (it would
    not link if instantiated); not a theorem.
21. slerp returns the older rotation itself when the computed angle is 0, so between nearly parallel
    quaternions of different length the length jumps instead of being interpolated (C68).
22. Python stamps go through a float: since 1970 + 97 days they lose up to 119 ns, and of two
    transforms closer than that the second is dropped without notice (C69, C70).
23. tf2_py: set_transform does not report a refusal; an answer stamped 2^31 s or later is a null
    pointer dereference; a query time in the last 238 ns of the range ends the process with an
    uncaught C++ exception, and so does any std::runtime_error of BufferCore (C70).
24. Python waiting calls: a backward jump of a simulated clock during a sleep raises
    ROSTimeMovedBackwardsException out of can_transform, the "bag loop" test is not reached (C71).
25. The Python listener clears the buffer under a lock, but callbacks already past the check set
    their old transforms afterwards; the frame then refuses all fresh data (C72).

26. `tf2_ros.convert` (and `Buffer.transform` with `new_type`) between two different message classes
    is not refused: it returns the argument object itself, still of its own class (C73).
27. The Python `Buffer` and `BufferClient` are not interchangeable: the client sends its stamps exactly,
    the local `Buffer` passes them through a float, so the two may answer with different times, or only
    one of them answers (C74).
28. `static_transform_publisher` compares the names as given, buffers after removing a leading slash:
    `/map map` is published for ever and refused by every buffer; so is a zero quaternion from
    arguments that are no numbers (C75).
29. `static_transform_publisher <param>` with a whole number in the YAML (`w: 1`) passes its own
    completeness check, then dies of an uncaught XmlRpcException (C75).
30. `echo.py` catches LookupException and ExtrapolationException only: a ConnectivityException (frames
    in two trees, typical at start-up) leaves the timer callback, the timer thread dies and nothing is
    ever printed again (C76).
31. `echo.py -c` fails for every value (a float has no `to_sec`); `-o 0` and `-t 0` mean "latest" (C76).
32. `view_frames` cannot draw a graph that is all cycles (UnboundLocalError on `root`) and raises a
    TypeError instead of reporting "No tf data received" when frames are known but cleared; a frame
    named `yes` or `1` is drawn as two nodes, because the YAML keys are not quoted (C77).
33. `Matrix3x3::diagonalize` rotates once more after its stop test, so off-diagonal entries can end
    above the documented bound (by at most sqrt 2); for nearly diagonal matrices the returned `rot`
    is not exactly a rotation even in exact arithmetic (C78).
34. `canTransform` gives no reason in its error string for an empty or slashed name, and text the
    caller left in the string can come back inside the reason when a history was cleared (C79).
35. `setTargetFrames` while `add` runs in another thread: the message is reported ready although a
    target frame it needs was never available; `clear` while `add` runs: the message is queued
    under a callback that no longer exists and waits for ever (C80).
36. Asking about the stamp of the newest sample before and after newer data arrives is not bit-exact:
    the copy becomes an interpolation at ratio 0, which next to an infinite coordinate is NaN (C81).
37. The fixed-frame `lookupTransform` locks twice: data set by another thread between the two halves
    gives a transform that no state of the buffer ever held; `canTransform` with a fixed frame locks
    once (C82).
38. `~MessageFilter` calls `clear()`, which registers the callback anew, bound to the object that is
    being destroyed: the callback stays in the buffer for ever (no request names it, so it is not called).
39. The order in which a filter's messages become ready depends on the requests of other filters on
    the same buffer (`testTransformableRequests` swaps with the last request).
40. One message stamped within the cache time of the end of `ros::Time`, given to any filter, makes
    every later `setTransform` that reaches its request throw; requests of other filters answered in the
    same call are forgotten and their messages wait for ever.
41. Removing a callback from inside another callback notified by the same setTransform makes the buffer
    call through a dangling reference (`boost::ref(it->second)`, buffer_core.cpp 1460; C86).
42. `clear()` does not raise the transforms-changed signal (C86).
43. A request callback that throws makes the remaining requests settled by that call disappear without
    notification, and the transforms-changed listeners are not told although the transform is stored (C86).
44. Destroying the last listener with a thread leaves the buffer believing that a thread feeds it: later
    queries with a timeout wait in vain instead of reporting the missing thread (C88).
45. Two listeners on one buffer clear it one after the other when the clock jumps back; the second
    throws away what the first has stored since (C88).
46. A publisher that changes the sign of its quaternion makes the numbers of looked-up rotations jump at
    every such sample (the interpolation works in the older sample's sign), although the rotation does
    not; code that differences quaternions of successive lookups sees it (C89).
47. Transformable requests are never dropped for age unless both frames are known: requests for frames that
    never appear accumulate without bound, and clear() keeps them (C90); a message filter bounds its own
    by its queue size (C46).
48. tf2_py keeps a reference to the classes Vector3 and Quaternion for every set_transform (checkTranslationType
    and checkRotationType never give back what PyObject_GetAttrString gave them), uses attributes after giving
    back its reference (a property is freed before it is read), dereferences null for an object without
    header, child_frame_id, frame_id or transform, and takes a coordinate that is no number for -1 and
    still hands the transform to the buffer (C91).
49. transformCovariance does not keep a covariance symmetric in binary64: entries (i, j) and (j, i) of the result
    may differ by a few hundred roundings (C92).
50. The point cloud transform does not normalise the quaternion, unlike the other doTransforms: a quaternion 1 % off
    unit length moves every point of a cloud by up to 2 % of its distance, silently (C93).
51. A MessageFilter with a callback queue can deliver a message as ready whose transform has meanwhile left the buffer;
    the callback's lookup then throws (C95).
52. buffer_server accepts a negative buffer_size: every transform is then accepted and pruned at once (C96).
53. tf2Select(unsigned condition, ...) negates (int)condition: undefined for condition 2^31 (C97).
54. tf2GreaterEqual(a, eps) is `!(a <= eps)`: false for equal numbers (C97).
55. When the C++ Buffer that serves tf2_frames is destroyed, no other buffer of the node takes over; the Python Buffer that
    serves it is never released; two Python Buffers constructed at the same time can make one constructor raise (C99).
56. tf2Min and tf2Max return their second argument if either is NaN, setMin, setMax and GEN_clamp their first (C100).

## 5. Not modelled
Byte layouts of ROS messages (except PointCloud2 data), network transport, formatting of
floating-point numbers into text, logging, memory allocation failure, the internals of KDL, Bullet,
Eigen, roscpp and actionlib, the length of sleeps, weak memory, fairness of the scheduler, and
performance.  Rounding: error bounds are proved for lookups (C67), interpolation (C04, C68) and
transforming points, vectors and quaternions (C83), poses and composed transforms (C85), wrenches
and covariances (C92) and point clouds in binary32 (C93); the other theorems over the reals carry none.
