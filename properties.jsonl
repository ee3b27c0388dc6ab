{"id": "C01", "title": "Per-frame history is sorted, duplicate-free and inside the storage window", "statement": "After any sequence of insertions and clears, the samples a frame keeps have pairwise distinct stamps, are ordered newest first, and none is older than the newest by more than the storage time.", "quantifier": "every sequence of insert/clear calls with every stamp and every storage time", "why_tests_cant": "the invariant ranges over all insertion orders and all stamps; tests try a few orders", "anchors": ["tf2/src/cache.cpp:TimeCache::insertData", "tf2/src/cache.cpp:TimeCache::pruneList"]}
{"id": "C02", "title": "Exact acceptance rule and exact retained set of a frame's history", "statement": "An offered sample is accepted iff it is not older than the newest kept sample by more than the storage time and no kept sample has its stamp; after acceptance the kept samples are exactly the old ones plus the new one minus those that fell out of the window, and after rejection nothing changes.  Over a whole history: the kept samples are exactly the first-offered sample of each stamp lying inside the window of the newest one offered.", "quantifier": "every history of offered samples", "why_tests_cant": "needs every history, including late, repeated and out-of-order arrivals", "anchors": ["tf2/src/cache.cpp:TimeCache::insertData", "tf2/src/cache.cpp:TimeCache::pruneList"]}
{"id": "C03", "title": "Out-of-order delivery converges", "statement": "Two deliveries of the same samples (with distinct stamps) in different orders leave a frame with the same history, hence identical answers to every query.", "quantifier": "every multiset of samples and every permutation of it", "why_tests_cant": "factorially many orders", "anchors": ["tf2/src/cache.cpp:TimeCache::insertData"]}
{"id": "C04", "title": "A lookup at a stored stamp returns that sample", "statement": "If a frame's history contains a sample with stamp t (t nonzero), reading the frame at t returns that sample. For the newest and the oldest sample, and for every sample in exact arithmetic, it is returned unchanged; reading at time zero returns the newest sample unchanged. For a sample between two others the code interpolates at ratio 0; in double precision, for finite samples whose quaternions have the length setTransform accepts and a libm accurate to four units of roundoff, the same stamp, parent and translation (number for number) come back and a quaternion within 332*2^-53 of the stored one. (With an infinite translation in the next sample the result is NaN.)", "quantifier": "every reachable history and every stamp", "why_tests_cant": "every history shape and position of the stamp, every double", "anchors": ["tf2/src/cache.cpp:TimeCache::findClosest", "tf2/src/cache.cpp:TimeCache::getData", "tf2/src/cache.cpp:TimeCache::interpolate"]}
{"id": "C05", "title": "No extrapolation", "statement": "A nonzero time strictly outside [oldest, newest] never yields data, and any time inside the interval always does.", "quantifier": "every reachable history and every time", "why_tests_cant": "infinitely many times and histories", "anchors": ["tf2/src/cache.cpp:TimeCache::findClosest"]}
{"id": "C06", "title": "Interpolation uses exactly the two bracketing neighbours", "statement": "For a time strictly between two consecutive stored stamps with the same parent, the answer is the interpolation of precisely those two samples at ratio (t-older)/(newer-older), stamped t; with different parents it is the older sample.", "quantifier": "every reachable history and time", "why_tests_cant": "the neighbour selection (binary search) must be right for every list", "anchors": ["tf2/src/cache.cpp:TimeCache::findClosest", "tf2/src/cache.cpp:TimeCache::interpolate", "tf2/src/cache.cpp:TimeCache::getData"]}
{"id": "C07", "title": "Interpolated pose is a valid pose between the neighbours", "statement": "Over the reals, for unit quaternions, the interpolated rotation is a unit quaternion, equals the neighbours' rotation (up to the sign of the quaternion) at the two ends, and the interpolated translation is the convex combination of the neighbours' translations; it turns at constant angular rate along the shorter arc.", "quantifier": "all unit quaternions, translations and ratios in [0,1]", "why_tests_cant": "continuum of inputs", "anchors": ["tf2/include/tf2/LinearMath/Quaternion.h:slerp", "tf2/include/tf2/LinearMath/Vector3.h:setInterpolate3", "tf2/src/cache.cpp:TimeCache::interpolate"]}
{"id": "C08", "title": "Static transforms hold at every time and the last one set wins", "statement": "A frame first published as static answers every lookup time with the most recently set static transform, stamped with the requested time, and is unaffected by clear().", "quantifier": "every history and every time", "why_tests_cant": "every later history and time", "anchors": ["tf2/src/static_cache.cpp:StaticCache::getData", "tf2/src/static_cache.cpp:StaticCache::insertData", "tf2/src/static_cache.cpp:StaticCache::clearList"]}
{"id": "C09", "title": "Frame kind is fixed by the first accepted transform", "statement": "Whether a frame is treated as static or time-varying is decided by the first transform accepted for it and never changes, whatever is_static later calls pass and even across clear().", "quantifier": "every history", "why_tests_cant": "all later histories", "anchors": ["tf2/src/buffer_core.cpp:BufferCore::setTransform", "tf2/src/buffer_core.cpp:BufferCore::allocateFrame"]}
{"id": "C10", "title": "setTransform validates its input exactly", "statement": "setTransform rejects (returns false, changes nothing) exactly when, after removing one leading slash, child and parent coincide, either is empty, a component is NaN, or |w²+x²+y²+z²-1| is not below 0.01; other rejections come only from stale or repeated stamps. In doubles every finite rotation whose exact squared length is within 0.0099 of 1 passes, whatever the rounding of the test.", "quantifier": "all messages and all buffer states, in IEEE-754 double arithmetic", "why_tests_cant": "2^448 numeric inputs incl. NaN/inf", "anchors": ["tf2/src/buffer_core.cpp:BufferCore::setTransform"]}
{"id": "C11", "title": "A rejected transform does not affect any answer", "statement": "If setTransform returns false, every lookupTransform, canTransform and getLatestCommonTime over frames that existed before gives the same result as before the call.", "quantifier": "every reachable state, message and query", "why_tests_cant": "all states and queries", "anchors": ["tf2/src/buffer_core.cpp:BufferCore::setTransform"]}
{"id": "C12", "title": "Frame ids are a stable bijection with names", "statement": "Every registered frame name has exactly one id, every id exactly one name, and once assigned neither changes nor disappears under any further operations, including clear().", "quantifier": "every history of operations", "why_tests_cant": "all histories", "anchors": ["tf2/src/buffer_core.cpp:BufferCore::lookupOrInsertFrameNumber", "tf2/src/buffer_core.cpp:BufferCore::lookupFrameString", "tf2/src/buffer_core.cpp:BufferCore::lookupFrameNumber", "tf2/src/buffer_core.cpp:BufferCore::clear"]}
{"id": "C13", "title": "canTransform agrees with lookupTransform", "statement": "While the requested time and all kept stamps are before 2^31 s (2038), canTransform(target, source, time) returns true iff lookupTransform(target, source, time) would return a transform. Without that restriction: a successful lookup implies canTransform, and canTransform implies that lookup either succeeds or throws rostime's std::runtime_error; canTransform itself never throws when no error string is requested.", "quantifier": "every reachable state, pair of names and time", "why_tests_cant": "two independently instantiated walks must agree on all states", "anchors": ["tf2/src/buffer_core.cpp:BufferCore::canTransform", "tf2/src/buffer_core.cpp:BufferCore::lookupTransform", "tf2/src/buffer_core.cpp:BufferCore::walkToTopParent"]}
{"id": "C14", "title": "canTransform agrees with lookupTransform through a fixed frame", "statement": "While the requested times and all kept stamps are before 2^31 s, the two-time, fixed-frame canTransform returns true iff the corresponding lookupTransform returns a transform.", "quantifier": "every reachable state, names and times", "why_tests_cant": "as above for the advanced API", "anchors": ["tf2/src/buffer_core.cpp:BufferCore::canTransform", "tf2/src/buffer_core.cpp:BufferCore::lookupTransform"]}
{"id": "C15", "title": "Lookup of a frame relative to itself", "statement": "lookupTransform(f, f, t) always succeeds with the identity transform for every name, registered or not, and the stamp is t, or the frame's newest stamp when t is zero.", "quantifier": "every state, name and time", "why_tests_cant": "all states", "anchors": ["tf2/src/buffer_core.cpp:BufferCore::lookupTransform"]}
{"id": "C16", "title": "The returned header is what was asked for", "statement": "A successful lookupTransform returns frame_id = target, child_frame_id = source, and stamp = the requested time, or the latest common time when the requested time is zero.", "quantifier": "every state and query", "why_tests_cant": "all states", "anchors": ["tf2/src/buffer_core.cpp:BufferCore::lookupTransform"]}
{"id": "C17", "title": "Asking for the latest equals asking at the returned stamp", "statement": "If lookupTransform(target, source, 0) returns a transform with stamp t, then lookupTransform(target, source, t) returns the very same message.", "quantifier": "every state and pair of names", "why_tests_cant": "all states", "anchors": ["tf2/src/buffer_core.cpp:BufferCore::walkToTopParent", "tf2/src/buffer_core.cpp:BufferCore::getLatestCommonTime"]}
{"id": "C18", "title": "Latest common time is the oldest of the newest stamps along the path", "statement": "When the newest links connect source and target, getLatestCommonTime succeeds with the minimum of the newest stamps of the links between the frames and their nearest common ancestor, ignoring static (zero-stamped) links, and zero if there are none; when they do not, it reports a connectivity error.", "quantifier": "every reachable state without a loop", "why_tests_cant": "all trees and stamps", "anchors": ["tf2/src/buffer_core.cpp:BufferCore::getLatestCommonTime"]}
{"id": "C19", "title": "Lookup returns the composition of the links on the path", "statement": "Over the reals, when every stored rotation is a unit quaternion (which holds whenever every message handed to setTransform carried one): if c is any common ancestor of source and target at the time the lookup resolves to, lookupTransform(target, source, t) is inverse(pose of target in c) composed with (pose of source in c), where poses are the products of the stored/interpolated links; the returned rotation is unit. In any arithmetic the exact product computed is determined by the path.", "quantifier": "every reachable state whose links at t are unit, every pair of frames", "why_tests_cant": "all tree shapes and poses", "anchors": ["tf2/src/buffer_core.cpp:BufferCore::walkToTopParent", "tf2/src/buffer_core.cpp:TransformAccum"]}
{"id": "C20", "title": "Lookup succeeds exactly when a common ancestor exists", "statement": "For registered frames in an acyclic tree of depth at most 1000, lookupTransform at a nonzero time t succeeds iff some frame is reachable upward from both via links that have data at t. A frame can be looked up in its own parent whenever its link has data at t, whatever the rest of the graph looks like (cycles, chains over the depth bound).", "quantifier": "every reachable state, pair of frames and time", "why_tests_cant": "all trees", "anchors": ["tf2/src/buffer_core.cpp:BufferCore::walkToTopParent"]}
{"id": "C21", "title": "Inverse lookups cancel and chained lookups compose", "statement": "Over the reals, with unit stored rotations: lookup(b,a,t) is the inverse of lookup(a,b,t), and lookup(a,c,t) = lookup(a,b,t) * lookup(b,c,t) whenever all succeed. Time zero: the two directions resolve to the same time and are inverse. With the slightly non-unit quaternions setTransform accepts this fails (witness).", "quantifier": "every reachable state with unit quaternions, all frames and times", "why_tests_cant": "all trees", "anchors": ["tf2/src/buffer_core.cpp:BufferCore::lookupTransform"]}
{"id": "C22", "title": "Every lookup terminates, loops are reported", "statement": "Lookup, canTransform and latest-common-time queries terminate on every graph, including cyclic ones, within 1001 steps per walk; if the source's upward chain is cyclic and does not meet the target the result is a lookup error.", "quantifier": "every graph of links, cyclic or not", "why_tests_cant": "termination over all graphs", "anchors": ["tf2/src/buffer_core.cpp:BufferCore::walkToTopParent", "tf2/src/buffer_core.cpp:BufferCore::getLatestCommonTime"]}
{"id": "C23", "title": "Failure classification", "statement": "A failing lookupTransform throws InvalidArgument iff a name is empty or starts with a slash (the source only being looked at if the target is known), LookupException if a name is unknown or the walk exceeds the depth bound; otherwise, before 2038 and at a nonzero time, ConnectivityException iff both chains end at distinct frames without any history, ExtrapolationException iff they end at distinct frames of which one has a history (but no data at that time).", "quantifier": "every state and query", "why_tests_cant": "all states", "anchors": ["tf2/src/buffer_core.cpp:BufferCore::lookupTransform", "tf2/src/buffer_core.cpp:BufferCore::validateFrameId", "tf2/src/buffer_core.cpp:BufferCore::walkToTopParent"]}
{"id": "C24", "title": "Fixed-frame lookup composes two ordinary lookups", "statement": "lookupTransform(target, t1, source, t2, fixed) succeeds iff the three names are known and have no leading slash and both lookup(fixed, source, t2) and lookup(target, fixed, t1) succeed; over the reals with unit stored rotations it is their product up to the sign of the quaternion (the same rigid motion); with t1 = t2 it is the same rigid motion as the direct lookup; the stamp is that of the target lookup.", "quantifier": "every reachable state, names and times", "why_tests_cant": "all states", "anchors": ["tf2/src/buffer_core.cpp:BufferCore::lookupTransform"]}
{"id": "C25", "title": "Internal ids and arrival order are invisible", "statement": "The answers to lookupTransform, canTransform and getLatestCommonTime depend only on the samples kept per frame name: two buffers fed the same messages in different interleavings across frames give identical answers.", "quantifier": "all histories and interleavings", "why_tests_cant": "all interleavings", "anchors": ["tf2/src/buffer_core.cpp:BufferCore::lookupOrInsertFrameNumber", "tf2/src/buffer_core.cpp:BufferCore::walkToTopParent"]}
{"id": "C26", "title": "setTransform affects only the child frame", "statement": "An accepted setTransform for child c leaves the history of every other frame unchanged; lookups whose paths do not use c's link are unchanged.", "quantifier": "every reachable state and message", "why_tests_cant": "all states", "anchors": ["tf2/src/buffer_core.cpp:BufferCore::setTransform"]}
{"id": "C27", "title": "clear() forgets dynamic data only", "statement": "After clear(), no time-varying frame yields data, static frames answer as before, and all frame names stay registered; re-inserting works as on a fresh frame.", "quantifier": "every reachable state", "why_tests_cant": "all states", "anchors": ["tf2/src/buffer_core.cpp:BufferCore::clear"]}
{"id": "C28", "title": "Leading slash handling", "statement": "setTransform of \"/x\" and of \"x\" have the same effect, while queries for names with a leading slash are rejected; every frame name with at most one leading slash accepted by setTransform is registered and acceptable to queries under the stripped name. (A name with two leading slashes is accepted by setTransform but can never be queried.)", "quantifier": "all names and states", "why_tests_cant": "all strings", "anchors": ["tf2/src/buffer_core.cpp:stripSlash", "tf2/src/buffer_core.cpp:BufferCore::validateFrameId", "tf2/src/buffer_core.cpp:BufferCore::warnFrameId"]}
{"id": "C29", "title": "Before 2038, time arithmetic never escapes as a non-tf2 exception", "statement": "While all stamps (plus the storage time, for insertions) are representable and kept stamps and requested times are before 2^31 s, setTransform, lookupTransform, canTransform and getLatestCommonTime never throw std::runtime_error from ros::Time arithmetic. (Beyond, both setTransform and lookupTransform can.)", "quantifier": "all stamps and times in ros::Time's range", "why_tests_cant": "all 2^62 time pairs", "anchors": ["tf2/src/cache.cpp:createExtrapolationException2", "tf2/src/cache.cpp:TimeCache::insertData", "tf2/src/cache.cpp:TimeCache::pruneList"]}
{"id": "C30", "title": "Transformable requests: exactly the due ones are settled, each at most once", "statement": "When setTransform accepts a transform, exactly the pending requests that are now due (frames transformable at the requested time, or the latest common time more than the cache time later) leave the pending list; each whose callback is registered is notified once, with its own handle and frame names and the right outcome, and all others stay pending. A rejected transform notifies nobody. A new request is answered 0 iff the names are equal or the frames are transformable now, all-ones iff it is too old, and is pending otherwise. Over a whole history no handle is notified twice and every notification is for a request made earlier. All this requires request time + cache time to be a representable time: otherwise setTransform throws and due requests are dropped without notification (refuted).", "quantifier": "every history of requests, cancellations and transforms", "why_tests_cant": "all histories", "anchors": ["tf2/src/buffer_core.cpp:BufferCore::testTransformableRequests", "tf2/src/buffer_core.cpp:BufferCore::addTransformableRequest"]}
{"id": "C31", "title": "What a transformable callback receives", "statement": "The callback is invoked with the handle and frame names of a request that was pending and has left the list, under a registered callback. The time argument, however, is a reference into the request vector that by then designates another pending request or nothing: it is never the request's own (refuted part).", "quantifier": "every set of pending requests", "why_tests_cant": "depends on lifetime of referenced objects across the batch", "anchors": ["tf2/src/buffer_core.cpp:BufferCore::testTransformableRequests"]}
{"id": "C32", "title": "Cancelled or deregistered requests never fire", "statement": "After cancelTransformableRequest(h), h < 2^32 issued earlier, no later call invokes a callback with h, and no other request is removed. After removeTransformableCallback(cb) no later call invokes cb unless the handle is handed out again by addTransformableCallback, and exactly its requests are dropped. For handles of 2^32 and above cancel acts on h mod 2^32 (refuted).", "quantifier": "every later history", "why_tests_cant": "all later histories", "anchors": ["tf2/src/buffer_core.cpp:BufferCore::cancelTransformableRequest", "tf2/src/buffer_core.cpp:BufferCore::removeTransformableCallback"]}
{"id": "C33", "title": "Request and callback handles are unique", "statement": "In every history of fewer than 2^64-2 calls the handles of pending requests are distinct, never 0 and never 0xffffffffffffffff, and handles given out strictly increase; callback handles in use are distinct and addTransformableCallback always finds an unused one while fewer than 2^32 are in use. Request number 2^64-1 gets handle 1 again (refuted).", "quantifier": "every history up to counter wrap-around", "why_tests_cant": "all histories incl. 2^32/2^64 wrap", "anchors": ["tf2/src/buffer_core.cpp:BufferCore::addTransformableRequest", "tf2/src/buffer_core.cpp:BufferCore::addTransformableCallback"]}
{"id": "C34", "title": "Requests made while transforms arrive concurrently", "statement": "In every interleaving of any number of requesters and publishers: each thread that has inserted an accepted transform will, when it runs its test, settle every request then due; so a request that is due but still pending although nothing was inserted since the last test must have been stored after that test. That case does occur (refuted: lost wake-up when insertion and test fall between the check and the storing).", "quantifier": "every interleaving of one requester and one publisher", "why_tests_cant": "all interleavings", "anchors": ["tf2/src/buffer_core.cpp:BufferCore::addTransformableRequest", "tf2/src/buffer_core.cpp:BufferCore::setTransform"]}
{"id": "C35", "title": "The frame chain is the tree path, except when it turns at the source's non-root parent", "statement": "Whenever a lookup succeeds and neither frame's chain of parents exceeds the depth bound, there is exactly one tree path: source up to the nearest common ancestor and down to the target, free of repetitions. The chain the buffer reports is exactly that path, and through a fixed frame it is the two paths joined with the fixed frame listed once, unless the path turns downward at the source's direct parent and that parent is not the root; then, and this is a defect of the code, all frames from that parent up to the root are listed as well.", "quantifier": "every reachable buffer, every pair of frames, every fixed frame and every pair of times", "why_tests_cant": "all tree shapes and times; the faulty case needs one particular shape (siblings below a non-root frame) which the shipped tests do not contain", "anchors": ["tf2/src/buffer_core.cpp:BufferCore::walkToTopParent", "tf2/src/buffer_core.cpp:BufferCore::_chainAsVector"]}
{"id": "C36", "title": "Quaternion algebra", "statement": "Over the reals: quaternion product is associative, has identity (0,0,0,1), multiplies norms; inverse() is a two-sided inverse for unit quaternions; quatRotate is a homomorphism into rotations and preserves lengths, dot and cross products; setRotation(axis, angle) is the turn by that angle about that unit axis (Rodrigues' formula) and getAxis/getAngle read it back; nearest/farthest return the closer/further of the two quaternions of the same rotation.", "quantifier": "all real quaternions and vectors", "why_tests_cant": "continuum", "anchors": ["tf2/include/tf2/LinearMath/Quaternion.h:operator*", "tf2/include/tf2/LinearMath/Quaternion.h:quatRotate", "tf2/include/tf2/LinearMath/Quaternion.h:inverse"]}
{"id": "C37", "title": "Quaternion to matrix conversion is a rotation and a homomorphism", "statement": "Matrix3x3 built from any nonzero quaternion is orthogonal with determinant 1, acts as quatRotate for unit quaternions, and respects products; getRotation returns a quaternion that converts back to the same matrix.", "quantifier": "all real quaternions / all rotation matrices", "why_tests_cant": "continuum and four branches", "anchors": ["tf2/include/tf2/LinearMath/Matrix3x3.h:setRotation", "tf2/include/tf2/LinearMath/Matrix3x3.h:getRotation"]}
{"id": "C38", "title": "Rigid transform algebra", "statement": "Transform composition is associative with identity, inverse() is a two-sided inverse for rigid transforms, inverseTimes(a,b) = a.inverse()*b, and applying a product equals applying in sequence.", "quantifier": "all rigid transforms and points", "why_tests_cant": "continuum", "anchors": ["tf2/include/tf2/LinearMath/Transform.h:operator*", "tf2/include/tf2/LinearMath/Transform.h:inverse", "tf2/include/tf2/LinearMath/Transform.h:inverseTimes"]}
{"id": "C39", "title": "Roll-pitch-yaw conventions agree", "statement": "Over the reals: Quaternion::setRPY yields a unit quaternion whose matrix is Matrix3x3::setRPY, equal to Rz(yaw)Ry(pitch)Rx(roll); Matrix3x3::getEulerYPR/getRPY of any rotation not at gimbal lock gives (in both solutions) angles with the same rotation, and solution 1 returns the angles put in; at gimbal lock it returns (0, ±pi/2, 0) whatever the rotation is, so there the round trip fails (witness). In doubles, with sin and cos right to four units in the last place of 1, setRPY is within 76 * 2^-53 of the exact quaternion for all finite angles.", "quantifier": "all real angles and all rotation matrices, including gimbal lock", "why_tests_cant": "continuum", "anchors": ["tf2/include/tf2/LinearMath/Quaternion.h:setRPY", "tf2/include/tf2/LinearMath/Matrix3x3.h:setEulerYPR", "tf2/include/tf2/LinearMath/Matrix3x3.h:getEulerYPR"]}
{"id": "C40", "title": "tf2::getYaw / getEulerYPR agree with Matrix3x3", "statement": "Over the reals: tf2::getEulerYPR(q) equals Matrix3x3(q).getEulerYPR and describes q's rotation whenever |sin(pitch)| < 0.99999; beyond that threshold the returned angles do not describe q's rotation, except the coincidence sin(pitch) = -1 with |x| = |y| (witness: straight up, off by half a turn); tf2::getYaw is the yaw of tf2::getEulerYPR.", "quantifier": "all nonzero real quaternions", "why_tests_cant": "continuum and boundary branches", "anchors": ["tf2/include/tf2/impl/utils.h:getEulerYPR", "tf2/include/tf2/impl/utils.h:getYaw"]}
{"id": "C41", "title": "doTransform on points and vectors is the rigid motion", "statement": "doTransform of a point applies the rotation then the translation, of a vector only the rotation; distances, angles and handedness are preserved and the length of a nonzero quaternion is ignored; transforming by the product of two transforms equals transforming twice and the inverse transform undoes; every stamped overload takes stamp and frame of the transform and keeps the output's sequence number. An all-zero quaternion is not rejected: it yields NaN coordinates.", "quantifier": "all transforms, points, vectors, input and output objects (equal or not)", "why_tests_cant": "continuum", "anchors": ["tf2_geometry_msgs/include/tf2_geometry_msgs/tf2_geometry_msgs.h:doTransform"]}
{"id": "C42", "title": "doTransform on quaternions, poses and transforms is composition", "statement": "doTransform of a quaternion is the Hamilton product with the transform's rotation; of a pose it moves the position like a point and multiplies the orientation, which comes out with unit length for any nonzero inputs; of a transform it is the composition, with the transform's header and the output's own child_frame_id. Composition and inverse act as a group up to quaternion sign.", "quantifier": "all transforms and poses", "why_tests_cant": "continuum", "anchors": ["tf2_geometry_msgs/include/tf2_geometry_msgs/tf2_geometry_msgs.h:doTransform"]}
{"id": "C43", "title": "Covariance transformation", "statement": "transformCovariance maps C to blockdiag(R,R) C blockdiag(R,R)^T in all 36 entries, reading nothing from the uninitialised result: it preserves symmetry and positive semidefiniteness, composes, and the inverse transform restores C.", "quantifier": "all 6x6 matrices and rotations", "why_tests_cant": "continuum", "anchors": ["tf2_geometry_msgs/include/tf2_geometry_msgs/tf2_geometry_msgs.h:transformCovariance"]}
{"id": "C44", "title": "Wrench transformation is physically consistent", "statement": "doTransform of a wrench gives force' = R force and torque' = R torque + p x R force: the moment about every point turns with the frame, the force magnitude is unchanged; it composes and is inverted by the inverse transform.", "quantifier": "all wrenches and rigid transforms", "why_tests_cant": "continuum", "anchors": ["tf2_geometry_msgs/include/tf2_geometry_msgs/tf2_geometry_msgs.h:doTransform"]}
{"id": "C45", "title": "Message conversions round-trip", "statement": "fromMsg(toMsg(x)) = x bit for bit for vectors, points, quaternions, wrenches and their stamped forms, and exactly over the reals for rigid transforms and poses; toMsg(fromMsg(m)) restores payload, stamp and frame (transforms up to quaternion sign); the sequence number is that of the message written into. The child_frame_id of a TransformStamped is lost (refuted).", "quantifier": "all values", "why_tests_cant": "continuum", "anchors": ["tf2_geometry_msgs/include/tf2_geometry_msgs/tf2_geometry_msgs.h:toMsg", "tf2_geometry_msgs/include/tf2_geometry_msgs/tf2_geometry_msgs.h:fromMsg", "tf2/include/tf2/convert.h"]}
{"id": "C46", "title": "MessageFilter reports each message at most once, and as ready only when transformable", "statement": "Over every history of add, reconfiguration, clear, spins, transforms and calls by other clients: each added message is reported at most once (ready or dropped), with its own frame and stamp, and never while it is still queued. It is reported ready only in a buffer state in which every target frame is available at its stamp and, with a tolerance, at stamp + tolerance, whatever the callback reads through its dangling result argument. EmptyFrameID is reported only for an empty frame id, OutTheBack only if some needed transform is missing and its time lies more than the cache time before the latest common time.", "quantifier": "every sequence of messages, transforms and callbacks", "why_tests_cant": "all histories", "anchors": ["tf2_ros/include/tf2_ros/message_filter.h:MessageFilter::add", "tf2_ros/include/tf2_ros/message_filter.h:MessageFilter::transformable"]}
{"id": "C47", "title": "MessageFilter queue is bounded and drops the oldest", "statement": "With queue sizes between 1 and Q the filter never holds more than Q messages. An add that queues a message into a full queue reports exactly the oldest one as dropped, keeps the order of the others, and cancels the dropped message's requests; an add into a queue with room drops nothing. setQueueSize to a smaller size does not shorten the queue, nor does a later add (refuted).", "quantifier": "every history", "why_tests_cant": "all histories", "anchors": ["tf2_ros/include/tf2_ros/message_filter.h:MessageFilter::add", "tf2_ros/include/tf2_ros/message_filter.h:MessageFilter::setQueueSize"]}
{"id": "C48", "title": "MessageFilter never strands a message while its configuration is left alone", "statement": "In histories where target frames and tolerance are changed only while the queue is empty, times stay in range and fewer than 2^32 requests are made: every queued message has a pending request under the filter's registered callback for a transform it needs; after an accepted transform every message still queued misses a transform that is neither available nor too old; if callbacks read the results decided for them, a queued message whose transforms are all available is reported ready by that very call; neither add nor setTransform throws because of the filter. Outside these conditions messages are stranded (refuted: reconfiguration while queued; a transform arriving between the request and the queueing) or dropped although transformable (refuted: dangling result), add throws for stamp + tolerance out of range, and a refused message leaks requests (refuted).", "quantifier": "every history, every result the dangling reference may yield", "why_tests_cant": "all interleavings", "anchors": ["tf2_ros/include/tf2_ros/message_filter.h:MessageFilter::add", "tf2_ros/include/tf2_ros/message_filter.h:MessageFilter::transformable", "tf2_ros/include/tf2_ros/message_filter.h:MessageFilter::setTargetFrames"]}
{"id": "C49", "title": "BufferServer answers every goal exactly once, at the right time, with the buffer's own answer", "statement": "In every interleaving of goal arrivals (goalCB split at its lock), cancel requests and timer ticks, each goal that came in is exactly one of: finished once (result or canceled), still waiting, or abandoned by an exception in goalCB; within ros::Time's range no step throws and none is abandoned. A new goal is answered at once iff the transform is available or its timeout has run out, and otherwise waits with deadline arrival + timeout. A tick answers exactly the waiting goals whose transform is available or whose deadline is past, each with what a lookup of its own question gives, and keeps the others; no goal outlives a tick after its deadline; no error is reported before the deadline unless the buffer changed between check and lookup. Canceling reports exactly the waiting goal. Refuted: a goal whose lookup throws rostime's range error is never answered and starves all goals behind it; a goal whose arrival + timeout is out of range is accepted and never finished; a cancel that overtakes the end of goalCB is lost.", "quantifier": "every sequence of goals, cancels, ticks and every buffer/clock observation in each", "why_tests_cant": "all interleavings and histories", "anchors": ["tf2_ros/src/buffer_server.cpp:goalCB", "tf2_ros/src/buffer_server.cpp:checkTransforms", "tf2_ros/src/buffer_server.cpp:cancelCB"]}
{"id": "C50", "title": "BufferClient gives the answer a local buffer would give", "statement": "For every run of a BufferServer, a BufferClient lookup (simple or advanced) that the server answers returns exactly what the local lookup of the same question returns in a buffer state the server saw: the same transform, or the same exception class and text; any other outcome is a TimeoutException. The goal sent carries the caller's question unchanged; the wire error codes keep all exception classes apart; canTransform is true iff lookupTransform returns, and otherwise false with the exception's text. Refuted: when timeout + padding is not a ros::Duration, std::runtime_error escapes even from canTransform.", "quantifier": "every server history, question, timeout and reply", "why_tests_cant": "all histories and questions", "anchors": ["tf2_ros/src/buffer_client.cpp:processGoal", "tf2_ros/src/buffer_client.cpp:processResult", "tf2_ros/src/buffer_client.cpp:canTransform", "tf2_ros/src/buffer_server.cpp:lookupTransform"]}
{"id": "C51", "title": "StaticTransformBroadcaster republishes one latest transform per child", "statement": "The C++ StaticTransformBroadcaster's k-th published message contains exactly one transform per distinct child frame sent so far, the last one sent for it. Hence, if every sent transform is well formed, a subscriber that connects after any number of calls (and receives the latched message) ends up with the same histories as one connected from the start, and the same answers for every frame it has heard of. TransformBroadcaster publishes exactly what it is given. Refuted: for the Python StaticTransformBroadcaster, which latches only its last call; and for malformed transforms, which replace good ones in the latched message.", "quantifier": "every sequence of sendTransform calls and every moment of connection", "why_tests_cant": "all sequences of calls and all interleavings of late connections", "anchors": ["tf2_ros/src/static_transform_broadcaster.cpp:sendTransform", "tf2_ros/src/transform_broadcaster.cpp:sendTransform", "tf2_ros/src/tf2_ros/static_transform_broadcaster.py"]}
{"id": "C52", "title": "TransformListener clears exactly on backwards time and otherwise forwards everything", "statement": "A TransformListener calls the buffer exactly as follows: per message, clear() if the clock is behind the previous message's clock, and then setTransform for every transform in order; a malformed transform changes nothing for the others; after a backward jump no time-varying sample from before remains. No exception escapes if stamps and pending requests are within ros::Time's range and the clock never jumps back by 2^31 s or more. Refuted outside: a transform whose stamp is at the end of ros::Time's range throws std::runtime_error, which is not caught, and loses the rest of the message; a backward jump of 2^31 s or more throws before clearing and the listener then ignores every message until the clock catches up.", "quantifier": "every sequence of messages and clock values, every prior buffer state", "why_tests_cant": "all sequences of messages and clock values", "anchors": ["tf2_ros/src/transform_listener.cpp:subscription_callback_impl"]}
{"id": "C53", "title": "Waiting canTransform/lookupTransform of tf2_ros::Buffer", "statement": "canTransform with a timeout (both overloads, dedicated thread present) returns BufferCore's own answer at an instant during the call; it returns false only if the transform is missing at that instant and, before, the deadline had passed, the clock had jumped back more than 3 s, the node was shutting down, or the transform had been seen and then removed. It sleeps only after seeing the transform missing and the deadline ahead, returns at once if the transform is available, returns within two polling rounds once it becomes available for good, and returns after at most m sleeps if each sleep moves the clock by d and m*d covers the timeout. No exception escapes while the clock is in range. lookupTransform with a timeout is BufferCore's lookup at the instant after the wait, and succeeds iff the wait answered true when nobody writes in between. Refuted: it never returns while the ROS clock stands still; without a dedicated thread canTransform answers false although the transform is available (and lookupTransform with the same arguments succeeds); a transform seen at a poll and cleared before the final check gives false before the deadline.", "quantifier": "every question, timeout, and every behaviour of clock, other threads and process state during the call", "why_tests_cant": "depends on arbitrary interleavings of writers, clock jumps and shutdown with the polling loop", "anchors": ["tf2_ros/src/buffer.cpp:canTransform", "tf2_ros/src/buffer.cpp:lookupTransform", "tf2_ros/src/buffer.cpp:checkAndErrorDedicatedThreadPresent"]}
{"id": "C54", "title": "When a time-zero lookup succeeds", "statement": "lookupTransform(target, source, 0) succeeds iff getLatestCommonTime succeeds with some r and, at r, a common ancestor can be reached from both frames. (Being connected through the newest links is not enough.)", "quantifier": "every reachable state", "why_tests_cant": "all histories incl. re-parenting and sparse data", "anchors": ["tf2/src/buffer_core.cpp:BufferCore::walkToTopParent", "tf2/src/buffer_core.cpp:BufferCore::getLatestCommonTime"]}
{"id": "C55", "title": "Transforming a PointCloud2 moves every point and touches nothing else", "statement": "For every cloud whose data are a whole number of points with non-overlapping 4-byte x, y, z fields inside each point, doTransform(PointCloud2) succeeds, in place or not: the three coordinates of every point are replaced by those of its image under the transform, every other byte, the fields, dimensions, flags, number and order of points are the input's, the header is the transform's, and no other object changes. A cloud without x, y or z makes it throw after the output was already overwritten with a copy of the input labelled with the target frame; data that are not a whole number of points are undefined behaviour. The Python function moves the first three values of each point whatever they are called and returns an unorganised cloud, so it agrees only when x, y, z come first.", "quantifier": "all clouds: any number of points, any field list, layout and bytes, any transform, any output, in place or not", "why_tests_cant": "all sizes, field layouts, paddings and byte contents, and both aliasing cases; a unit test has one small cloud", "anchors": ["tf2_sensor_msgs/include/tf2_sensor_msgs/tf2_sensor_msgs.h: doTransform", "tf2_sensor_msgs/src/tf2_sensor_msgs/tf2_sensor_msgs.py: do_transform_cloud"]}
{"id": "C56", "title": "Matrix3x3 inverse and products", "statement": "Over the reals: Matrix3x3::inverse is the two-sided inverse of every matrix with nonzero determinant and the transpose for rotations; transposeTimes/timesTranspose are the products they name; applying a product is applying in sequence.", "quantifier": "all real 3x3 matrices", "why_tests_cant": "continuum", "anchors": ["tf2/include/tf2/LinearMath/Matrix3x3.h:inverse", "tf2/include/tf2/LinearMath/Matrix3x3.h:transposeTimes"]}
{"id": "C57", "title": "MessageFilter::clear forgets", "statement": "After clear() no message added before it is ever reported, whatever follows; the queue and the filter's pending callbacks are empty, none of its former requests is left in the buffer, and the filter keeps working with a registered callback and its configuration.", "quantifier": "every history before and after the call", "why_tests_cant": "all histories, including verdicts already sitting in the callback queue", "anchors": ["tf2_ros/include/tf2_ros/message_filter.h:MessageFilter::clear"]}
{"id": "C58", "title": "What a buffer reports about itself is what it holds", "statement": "_getParent(frame, t) returns the parent of the sample the registered frame yields at t, and nothing when it yields none. allFramesAsString lists exactly once, in registration order, every frame that has been a child, with the parent of its newest sample. allFramesAsYAML and _allFramesAsDot describe exactly the frames that currently have data, with correct parent, newest and oldest stamp, buffer length, delay and rate, name as broadcaster the sender of the last accepted (not of a refused) message, and never fail; the graph's roots are the frames without a current parent.", "quantifier": "every history of setTransform/clear calls, every frame name, every time and every wall time", "why_tests_cant": "A test compares one printed tree; that a line appears exactly once for each frame, that refused messages leave no trace and that no index is out of range must hold for every history.", "anchors": ["tf2/src/buffer_core.cpp: BufferCore::_getParent", "tf2/src/buffer_core.cpp: BufferCore::allFramesAsStringNoLock", "tf2/src/buffer_core.cpp: BufferCore::allFramesAsYAML", "tf2/src/buffer_core.cpp: BufferCore::_allFramesAsDot"]}
{"id": "C59", "title": "doTransform is safe in place", "statement": "The result of doTransform is determined by the value of the input alone: when the output object is the input object (as convert.h promises) the payload is the same as when it is a different object, and no third object changes; for TransformStamped the transform itself may also be the input or the output.", "quantifier": "every message type, every aliasing of input, output and transform, every scalar including NaN and infinities", "why_tests_cant": "all aliasing patterns and values", "anchors": ["tf2/include/tf2/convert.h:doTransform", "tf2_geometry_msgs/include/tf2_geometry_msgs/tf2_geometry_msgs.h:doTransform"]}
{"id": "C60", "title": "tf2_geometry_msgs, tf2_eigen, tf2_kdl, tf2_bullet and the Python doTransform functions agree", "statement": "For one TransformStamped with a unit quaternion, a point, free vector, pose, frame, wrench or twist that is converted to the Eigen, KDL or Bullet type, transformed there and converted back, or transformed by the Python functions, comes out as the same value tf2_geometry_msgs computes (poses up to the sign of the quaternion), stamped and framed by the transform. The twist of tf2_kdl carries the velocity of every body point along. Exceptions, each with a proved witness: Python's do_transform_wrench leaves out the lever arm (right exactly when the shift is parallel to the rotated force); tf2_eigen's doTransform(Quaterniond) conjugates instead of composing; for quaternions not of unit length Eigen, KDL and Python do not normalise while tf2_geometry_msgs and Bullet do.", "quantifier": "all transforms with unit quaternion (real arithmetic), all points, vectors, poses, frames, wrenches and twists", "why_tests_cant": "equality of real-valued functions over all transforms and inputs; tests in the packages compare a few hand-picked values, and miss the wrench and quaternion disagreements", "anchors": ["tf2_eigen/include/tf2_eigen/tf2_eigen.h: doTransform, toMsg, fromMsg", "tf2_kdl/include/tf2_kdl/tf2_kdl.h: doTransform, transformToKDL", "tf2_bullet/include/tf2_bullet/tf2_bullet.h: doTransform, transformToBullet", "tf2_geometry_msgs/src/tf2_geometry_msgs/tf2_geometry_msgs.py: do_transform_point, do_transform_vector3, do_transform_pose, do_transform_wrench"]}
{"id": "C61", "title": "Buffer::transform carries data to the target frame, and its round trips and hops cancel", "statement": "transform(in, out, target) asks the buffer once with the frame and stamp of the input and, if that lookup succeeds, writes to the output (which may be the input object) the payload carried over by the returned transform, frame = target, stamp = stamp of the input (latest common time for stamp 0), and changes no other object; if it throws, the exception is passed on and no object has changed in any of the six overloads. It works exactly when canTransform is true. The value-returning overloads change nothing; the two-type overloads write the tf2::convert of what the value form returns. Over unit quaternions, transforming to a frame and back returns the original data, stamp and frame, the way back is open whenever the way there was, two hops equal one, and the fixed-frame overload equals transforming into the fixed frame at the message time and from there to the target at the target time.", "quantifier": "all buffer histories, frames, times, addresses of input and output (equal or not), payloads of the six tf2_geometry_msgs stamped types and tf2::Stamped types, all implementations of the interface", "why_tests_cant": "the claims range over every tree, every message and every aliasing of input and output; cancellation depends on the algebra of all unit quaternions", "anchors": ["tf2_ros/include/tf2_ros/buffer_interface.h: BufferInterface::transform (six overloads)", "tf2/include/tf2/convert.h: convert, getFrameId, getTimestamp", "tf2/include/tf2/impl/convert.h: Converter", "tf2_geometry_msgs/include/tf2_geometry_msgs/tf2_geometry_msgs.h: doTransform"]}
{"id": "C62", "title": "Conversions to Eigen, KDL and Bullet types and back lose nothing", "statement": "toMsg followed by fromMsg (and the other way round) returns the same value: exactly, bit for bit, for points, vectors, quaternions, twists and wrenches, stamped ones included (a stamped message comes back with seq 0); for rigid frames exactly over the reals; for poses and transforms with unit quaternions up to the quaternion's sign, where tf2_eigen returns the representative with w >= 0 and so returns a pose with w > 0 unchanged. transformToEigen/eigenToTransform and transformToKDL/kdlToTransform are inverse on the motion but drop header and child frame.", "quantifier": "all values of the types (every scalar for the exact ones, all rigid frames and unit quaternions over the reals)", "why_tests_cant": "matrix-to-quaternion conversion has four branches selected by the matrix; only a proof over all rotation matrices covers them and their boundaries", "anchors": ["tf2_eigen/include/tf2_eigen/tf2_eigen.h: toMsg, fromMsg, transformToEigen, eigenToTransform", "tf2_kdl/include/tf2_kdl/tf2_kdl.h: toMsg, fromMsg, transformToKDL, kdlToTransform", "tf2_bullet/include/tf2_bullet/tf2_bullet.h: toMsg, fromMsg"]}
{"id": "C63", "title": "Calls from several threads never deadlock", "statement": "Whatever mix of BufferCore, Buffer, TransformListener, MessageFilter, BufferServer and callback-queue calls several threads make, and however they are scheduled (even if waiting writers shut out new readers), some unfinished thread can always take its next step, every thread can run to its end, each step brings the end nearer, and no mutex is left locked, exceptions included: provided user callbacks only query buffers (under locks of their own if they like) or add messages to filters downstream of theirs. Outside that proviso it fails, with proved witnesses: an output callback that adds a message to its own filter, or sets a transform for which another message of the filter waits, locks messages_mutex_ twice; MessageFilter::clear() with a callback queue and a running callback that adds a message wait for each other.", "quantifier": "any number of threads, any sequences of calls with any branch taken in each, every interleaving of their lock operations and accesses, any number of buffers, filters and queues", "why_tests_cant": "a deadlock needs one particular interleaving of particular branches; tests run a few schedules of a few calls", "anchors": ["tf2/src/buffer_core.cpp: frame_mutex_, transformable_callbacks_mutex_, transformable_requests_mutex_, testTransformableRequests", "tf2_ros/include/tf2_ros/message_filter.h: messages_mutex_, target_frames_mutex_, failure_signal_mutex_, add, clear, transformable, messageReady", "tf2_ros/src/buffer_server.cpp: mutex_, checkTransforms, goalCB, cancelCB"]}
{"id": "C64", "title": "Which shared data several threads may touch without a data race", "statement": "Whatever calls several threads make, no two of them are ever at the same moment about to touch the list of transformable requests, the map of callbacks, a MessageFilter's queue, statistics or failure signal, or a BufferServer's goals, one of them to write it. If nobody makes transformable requests the same holds of the stored transforms, and if moreover nobody uses the fixed-frame lookup, of the table of frame names. The remaining cases do race, with proved witnesses: the fixed-frame lookupTransform reads the frame table unlocked; addTransformableRequest reads frames and increments the handle counter unlocked; a callback is called through a reference into the map after the lock is released, while removeTransformableCallback erases it; setTargetFrames, setTolerance, setQueueSize and a second add race on a MessageFilter's settings and incoming counter.", "quantifier": "any number of threads, any sequences of calls with any branch taken in each, every interleaving", "why_tests_cant": "a race shows only in rare interleavings and often not at all; its absence is a statement about all of them", "anchors": ["tf2/src/buffer_core.cpp: lookupTransform (both), addTransformableRequest, testTransformableRequests, removeTransformableCallback, setTransform, clear", "tf2_ros/include/tf2_ros/message_filter.h: setTargetFrames, setTolerance, setQueueSize, add, transformable", "tf2_ros/src/buffer_server.cpp: active_goals_"]}
{"id": "C65", "title": "Vector3 and Matrix3x3 helpers compute what their names say", "statement": "Over the reals: angle() is the angle in [0, pi] with v.w = |v||w|cos and |v x w| = |v||w|sin; distance() is a metric, kept by every rigid motion; normalized() has length 1 and the same direction; lerp() is setInterpolate3, meets both ends and moves in proportion to t; minAxis, maxAxis, furthestAxis, closestAxis return the index of a least/greatest component (in absolute value for the last two); setMin/setMax are componentwise; getSkewSymmetricMatrix and triple are the cross and box product; scaled() scales the columns; Transform * Quaternion composes rotations; tf2PlaneSpace1 completes a unit vector to a right-handed orthonormal frame; getOpenGLMatrix writes the homogeneous matrix column by column and setFromOpenGLMatrix reads it back bit for bit. Exception with a proved witness: normalizing a zero vector gives NaN.", "quantifier": "all vectors, matrices, transforms and quaternions (real arithmetic; any arithmetic for the OpenGL round trip)", "why_tests_cant": "identities between real functions of up to twelve variables; branches chosen by comparisons", "anchors": ["tf2/include/tf2/LinearMath/Vector3.h: angle, distance, normalized, lerp, minAxis, maxAxis, furthestAxis, closestAxis, setMin, setMax, triple, getSkewSymmetricMatrix, tf2PlaneSpace1", "tf2/include/tf2/LinearMath/Matrix3x3.h: scaled, getColumn, getOpenGLSubMatrix", "tf2/include/tf2/LinearMath/Transform.h: operator*(Quaternion), getOpenGLMatrix, setFromOpenGLMatrix"]}
{"id": "C66", "title": "Angles between rotations and shortest arcs", "statement": "For unit quaternions over the reals, getAngleShortestPath is the angle of the rotation (the only one in [0, pi] by which it turns about some axis) and angleShortestPath(p, q) the angle of the rotation taking p to q; angle(p, q) is half of it when the quaternions are less than 90 degrees apart and pi minus half otherwise. shortestArcQuat(v, w) of unit vectors turns v to w and no unit quaternion that does so turns by less; for vectors opposite up to 2.2e-8 it turns v to -v. tf2NormalizeAngle returns the same direction between -pi and pi.", "quantifier": "all unit quaternions, unit vectors and angles (real arithmetic)", "why_tests_cant": "minimality and uniqueness range over all rotations; the near-opposite branch has measure zero for sampled inputs", "anchors": ["tf2/include/tf2/LinearMath/Quaternion.h: angle, angleShortestPath, getAngleShortestPath, shortestArcQuat, shortestArcQuatNormalize2", "tf2/include/tf2/LinearMath/Scalar.h: tf2NormalizeAngle"]}
{"id": "C67", "title": "Rounding error of a lookup in double precision", "statement": "In IEEE-754 double precision, whatever the C library's transcendental functions return, a successful lookup between two different frames differs from the exact composition of the transforms it was composed of by a bound that grows only with the number of links: if every link used has finite numbers, a quaternion of length at most k and a translation of length at most L, then the answer is finite (no overflow, no NaN), the quaternion is within 21*(N+1)*2^-53*k^N of the exact product and the translation within 128*(N+1)^2*2^-53*k^(4N)*L, N being the number of links on the path. For quaternions within 2^-20 of unit length the factors k^N disappear (22 and 130).", "quantifier": "every buffer reachable by any history of calls, every pair of frames and time, every libm, all link data within the magnitude bounds, path lengths up to the code's depth limit", "why_tests_cant": "a bound over all doubles and all chain lengths; tests sample a few chains and compare with a tolerance picked by hand", "anchors": ["tf2/src/buffer_core.cpp: TransformAccum::accum, TransformAccum::finalize, BufferCore::lookupTransform", "tf2/include/tf2/LinearMath/Quaternion.h: operator*, quatRotate, inverse", "tf2/include/tf2/LinearMath/Vector3.h: operator+"]}
{"id": "C68", "title": "Interpolation in double precision stays on the line and the arc, and lookups never return NaN", "statement": "In IEEE-754 double precision with a libm whose sin and acos are accurate to four units of roundoff: (a) every quaternion setTransform accepts is finite with length between 0.99 and 1.006, whatever doubles the message carried; (b) reading a frame between two such samples gives a translation within 13*2^-53*(|v|+|w|) (plus underflow) of the exact point at the exact fraction of time on the straight line, and a rotation within 165*2^-53*(|p|+|q|) of the exact point on the shorter arc, or the older sample's rotation itself when the two are closer than 2^-22 rad; (c) if every message ever received had finite translations of bounded length, every successful lookup between two frames returns finite numbers, within a stated bound of the exact composition of the links used.", "quantifier": "every history of calls, every time, every pair of frames, all doubles in the stated range, every libm meeting the accuracy requirement", "why_tests_cant": "a bound over all doubles, all pairs of neighbouring samples, all times in between and all chains of links", "anchors": ["tf2/src/cache.cpp:TimeCache::interpolate", "tf2/include/tf2/LinearMath/Quaternion.h: slerp, angleShortestPath, length2, dot", "tf2/include/tf2/LinearMath/Vector3.h: setInterpolate3", "tf2/include/tf2/LinearMath/Scalar.h: tf2Acos", "tf2/src/buffer_core.cpp: BufferCore::setTransform, BufferCore::lookupTransform"]}
{"id": "C69", "title": "What happens to a stamp that passes through a Python float", "statement": "The Python bindings hand every time to C++ as to_sec(), a double. Below 2^23 s (97 days: simulated or bag-relative time) the stamp arrives exactly; below 2^31 s it is off by at most 119 ns; over the whole range of ros::Time it is off by at most 238 ns, except for the last 238 ns before 2^32 s, which make the conversion throw. The trip never reverses the order of two stamps, and a stamp that made it once makes it again unchanged. (It is not injective: present-day stamps 50 ns apart may arrive as one.)", "quantifier": "every ros::Time (all 2^32 * 10^9 of them) and every pair of them", "why_tests_cant": "4*10^18 stamps with rounding in division, addition, subtraction and multiplication; the exactness boundary and the worst error are not at any value one would test", "anchors": ["tf2_py/src/tf2_py.cpp:rostime_converter", "tf2_py/src/tf2_py.cpp:transform_converter"]}
{"id": "C70", "title": "A Python buffer is the C++ buffer at float-rounded times", "statement": "For programs whose stamps are before 2038: every sequence of set_transform, set_transform_static and clear returns and leaves the buffer that the C++ calls leave when each stamp is replaced by its float-rounded value (the very same buffer when stamps are below 2^23 s). lookup_transform and lookup_transform_full return exactly what the C++ lookup at the rounded times returns and raise the exception class it throws, never anything that ends the interpreter; can_transform(_full) is true exactly when the corresponding lookup returns a transform; an answer carries the requested frames and a stamp within 119 ns of the requested time (equal below 2^23 s); the stamp of a latest transform can be asked for again and gives the same transform; get_latest_common_time gives a value exactly for known, connected frames with a common time, and it is the stamp of the latest transform. (A refused set_transform is not reported, two stamps that coincide after rounding lose the second transform, and stamps from 2^31 s on crash the interpreter.)", "quantifier": "every Python program of buffer calls, every message, frame name and query time", "why_tests_cant": "every history and every stamp; rounding collisions depend on exact nanosecond values", "anchors": ["tf2_py/src/tf2_py.cpp:setTransform", "tf2_py/src/tf2_py.cpp:setTransformStatic", "tf2_py/src/tf2_py.cpp:canTransformCore", "tf2_py/src/tf2_py.cpp:canTransformFullCore", "tf2_py/src/tf2_py.cpp:lookupTransformCore", "tf2_py/src/tf2_py.cpp:lookupTransformFullCore", "tf2_py/src/tf2_py.cpp:getLatestCommonTime", "tf2_py/src/tf2_py.cpp:WRAP"]}
{"id": "C71", "title": "Python queries with a timeout: current answers, no needless waiting", "statement": "Python's Buffer.can_transform(_full) and lookup_transform(_full) with a timeout, for times before 2038 and whatever other threads, the clock and shutdown do: without a timeout the call looks once and never sleeps; the answer is the buffer's answer at the last instant of the call; it is false only if the deadline has passed, the clock was seen more than 3 s before the start, or the transform was there during the call and is gone; it sleeps only after having seen the deadline ahead and the transform missing, so for a transform that is there it returns at once; once the transform is there to stay it returns true within two rounds; if every sleep advances the clock by d it returns after at most timeout/d sleeps; exceptions escape only from rospy.sleep or if start + timeout is negative; lookup_transform is the immediate lookup at the next instant, and succeeds iff can_transform was true when the buffer did not change in between. (A simulated clock that jumps back during a sleep raises out of the call instead of ending the wait.)", "quantifier": "every evolution of buffer, clock and process state during the call, every question and timeout", "why_tests_cant": "every interleaving of updates, clock readings and sleeps", "anchors": ["tf2_ros/src/tf2_ros/buffer.py:Buffer.can_transform", "tf2_ros/src/tf2_ros/buffer.py:Buffer.can_transform_full", "tf2_ros/src/tf2_ros/buffer.py:Buffer.lookup_transform", "tf2_ros/src/tf2_ros/buffer.py:Buffer.lookup_transform_full"]}
{"id": "C72", "title": "The Python TransformListener under concurrent callbacks", "statement": "Callbacks for /tf and /tf_static messages run concurrently. Whatever the interleaving, the buffer is the result of buffer calls in which every message's transforms appear exactly once, in order, with the right topic and publisher, plus exactly one clear() for each backward step between consecutive clock readings; without a backward step nothing is cleared; before 2038 no callback can fail or block another; messages handled one after the other give exactly the calls of the C++ listener; after a jump every time-varying sample comes from a transform that was not yet set when the jump was noticed. (A callback that had passed the check before the jump still sets its old transforms afterwards; ahead of the clock by more than the cache time, such a sample makes the frame refuse all fresh data.)", "quantifier": "every sequence of messages, clock readings and interleaving of the callbacks' steps", "why_tests_cant": "every schedule of arbitrarily many concurrent callbacks", "anchors": ["tf2_ros/src/tf2_ros/transform_listener.py:TransformListener.check_for_reset", "tf2_ros/src/tf2_ros/transform_listener.py:TransformListener.callback", "tf2_ros/src/tf2_ros/transform_listener.py:TransformListener.static_callback"]}
{"id": "C73", "title": "Python: transform asks once and moves the object; convert", "statement": "With tf2_geometry_msgs, tf2_kdl and tf2_sensor_msgs imported in any order (which makes no difference; the last registration for a class counts): transform(obj, target) and transform_full raise TypeException for a class nobody registered and AttributeError for an object without header, in both cases without asking the buffer; otherwise they ask it exactly once, with the object's frame and stamp and the caller's target, times, fixed frame and timeout, and raise what it raises; given the transform T the result has the same class and T's header and is the object moved by T (points, vectors, poses, wrenches, clouds, PyKDL vectors, frames, twists, wrenches); in front of a Buffer T is what the buffer held when the wait was over. convert to the own class gives an equal, new object; PointStamped and PyKDL.Vector convert into each other without loss of coordinates, stamp and frame; for points, transforming then converting equals converting then transforming bit for bit; TypeException is raised exactly if the classes differ and one of them is none of the registered four messages or PyKDL.Vector. (But a conversion between two different message classes is not refused: it returns the argument itself, with its own class.)", "quantifier": "every object, target, timeout, buffer behaviour, import order and sequence of registrations", "why_tests_cant": "every combination of object class, requested class, registration history and buffer behaviour", "anchors": ["tf2_ros/src/tf2_ros/buffer_interface.py:BufferInterface.transform", "tf2_ros/src/tf2_ros/buffer_interface.py:BufferInterface.transform_full", "tf2_ros/src/tf2_ros/buffer_interface.py:TransformRegistration", "tf2_ros/src/tf2_ros/buffer_interface.py:ConvertRegistration", "tf2_ros/src/tf2_ros/buffer_interface.py:convert", "tf2_geometry_msgs/src/tf2_geometry_msgs/tf2_geometry_msgs.py", "tf2_kdl/src/tf2_kdl/tf2_kdl.py", "tf2_sensor_msgs/src/tf2_sensor_msgs/tf2_sensor_msgs.py"]}
{"id": "C74", "title": "Python: a remote buffer answers like a local one", "statement": "Python's BufferClient against any run of the BufferServer: an answered request ends as the same lookup would have ended locally in C++ in a buffer state the server saw - the same transform to the nanosecond, or the same exception class and text; any other request raises TimeoutException; given the same replies it does what the C++ client does; can_transform never raises and is True exactly if lookup_transform returns; where the times asked for survive the trip through a float, the answer is also the one of a Python Buffer with the server's contents; transform through a client moves the object by the transform the client got. (Elsewhere Buffer and BufferClient are not interchangeable: the client's stamps are exact, the local buffer's are not.)", "quantifier": "every sequence of goals, cancellations, timer ticks, buffer states and replies, every question and timeout", "why_tests_cant": "every schedule of the server and every reply", "anchors": ["tf2_ros/src/tf2_ros/buffer_client.py:BufferClient.lookup_transform", "tf2_ros/src/tf2_ros/buffer_client.py:BufferClient.lookup_transform_full", "tf2_ros/src/tf2_ros/buffer_client.py:BufferClient.can_transform", "tf2_ros/src/tf2_ros/buffer_client.py:BufferClient.can_transform_full", "tf2_ros/src/tf2_ros/buffer_client.py:BufferClient.__process_goal", "tf2_ros/src/tf2_ros/buffer_client.py:BufferClient.__process_result", "tf2_ros/src/buffer_server.cpp"]}
{"id": "C75", "title": "static_transform_publisher publishes exactly the transform asked for", "statement": "With nine arguments (x y z qx qy qz qw frame child), eight (x y z yaw pitch roll frame child) or one (the name of a parameter holding header/frame_id, child_frame_id and transform with seven doubles), static_transform_publisher publishes exactly one message holding exactly that one transform, stamped with the time of the call, and keeps it latched - unless frame and child are the same string: then it exits with 1. It exits with -1 exactly for another number of arguments or a parameter that is missing or lacks one of the nine members, and it dies of an uncaught exception exactly if the members are there but one is not a double (not a string, for the names). The angles are yaw, pitch, roll in this order, about the fixed axes x (roll), then y, then z; in doubles the published rotation is within 76 * 2^-53 of the exact one for all finite angles, and what is published from angles is malformed only because of its names. Every buffer that gets the latched message, whenever it subscribes and whatever else it is told before and after, answers that very transform between the two frames at every time (even if the parent is part of a cycle). (Not so: that everything published is usable - \"/map\" and \"map\" differ for the program but not for buffers, and text that is no number counts as 0; whole numbers in the parameter, which XmlRpc reads as ints, kill the program.)", "quantifier": "all argument lists, parameter values, clocks, numeric values, buffer histories before and after, and times", "why_tests_cant": "all argument lists, nested parameter values, angles and histories", "anchors": ["tf2_ros/src/static_transform_broadcaster_program.cpp:main", "tf2_ros/src/static_transform_broadcaster_program.cpp:validateXmlRpcTf", "tf2_ros/src/static_transform_broadcaster.cpp:StaticTransformBroadcaster::sendTransform", "tf2/include/tf2/LinearMath/Quaternion.h:setRPY"]}
{"id": "C76", "title": "echo.py prints the buffer's transform, and angles that are its rotation", "statement": "Over the reals, for every quaternion with squared length at least 2^-50, the roll, pitch and yaw echo.py prints are exactly its rotation (fixed axes, Rz(yaw)Ry(pitch)Rx(roll)) unless the cosine of the pitch lies in (0, 2^-50], and always up to 2^-49 in every matrix entry; roll and yaw are in (-pi, pi], pitch in [-pi/2, pi/2]; angles given to setRPY come back; away from the poles they are the angles of getEulerYPR. Each attempt within the limit asks for the transform at the time given with -t, else at now plus the offset given with -o, else for the latest; it prints exactly what the buffer's lookup of target in source returns (before 2038, at a time within 119 ns), it logs and goes on exactly for LookupException and ExtrapolationException, and any other exception of the lookup ends the session. With -l n exactly attempt n+1 ends the program, without it none does. (Not so: that it keeps trying - frames in two unconnected trees end it for good even if they are joined later; that -c works - every value raises TypeError; that -o 0 asks for the current time.)", "quantifier": "all quaternions and angle triples; all command lines, worlds (clock and buffer changing between any two observations), call instants and attempt numbers", "why_tests_cant": "all rotations including those near gimbal lock, and all histories of the buffer during a session", "anchors": ["tf2_tools/scripts/echo.py:_euler_from_matrix", "tf2_tools/scripts/echo.py:_quaternion_matrix", "tf2_tools/scripts/echo.py:Echo.lookup", "tf2_tools/scripts/echo.py:Echo.__init__", "tf2_ros/src/tf2_ros/buffer.py:Buffer.lookup_transform", "tf2_py/src/tf2_py.cpp:rosduration_converter"]}
{"id": "C77", "title": "view_frames draws the tree the buffer holds", "statement": "If every registered frame name is one YAML reads as a string, view_frames draws exactly one edge per frame with data, in order of registration, from the parent of its newest sample, labelled with that frame's broadcaster, rate, buffer length, newest and oldest time; the legend points to a frame that is a parent and has no data itself. It draws the graph exactly when some parent has no data itself, in particular whenever the upward chain of some frame with data ends; it says 'No tf data received' exactly if no frame is registered. (Not so: it dies of a TypeError exactly if frames are registered but none has data, e.g. after a clear; of an UnboundLocalError exactly if every parent has data, and then every frame is under a cycle - the case one would want drawn; frames named like YAML numbers, booleans or null are torn apart or merged.)", "quantifier": "all reachable buffers, all readings of YAML scalars", "why_tests_cant": "all graphs of frames, including cycles, forests and cleared buffers, and all names", "anchors": ["tf2_tools/scripts/view_frames.py:generate_dot", "tf2_tools/scripts/view_frames.py:main", "tf2/src/buffer_core.cpp:BufferCore::allFramesAsYAML", "tf2_ros/src/tf2_ros/buffer.py:Buffer.__get_frames"]}
{"id": "C78", "title": "diagonalize finds eigenvalues and eigenvectors of a symmetric matrix", "statement": "Matrix3x3::diagonalize on a symmetric matrix M with a threshold >= 0, in exact arithmetic: the new matrix is symmetric, has M's trace, and M = rot*new*rot^T up to maxSteps*2^-58 of M's norm; rot is a rotation up to maxSteps*2^-58 and never a reflection; M*rot = rot*new up to twice that, so once new is diagonal the columns of rot are eigenvectors; every permitted step shrinks the off-diagonal part by a factor sqrt(2/3), unless the iteration stops earlier with every off-diagonal entry at most sqrt(2)*threshold*(sum of the magnitudes of the diagonal). In every arithmetic a symmetric matrix stays bitwise symmetric. (Not so: the documented bound without the factor sqrt(2), because one more rotation follows the test; and exactness of the factorisation, because nearly diagonal matrices are turned by an approximate angle.)", "quantifier": "all symmetric 3x3 real matrices, thresholds >= 0 and step counts; symmetry: every scalar arithmetic", "why_tests_cant": "accuracy and convergence of an iteration for all matrices and step counts", "anchors": ["tf2/include/tf2/LinearMath/Matrix3x3.h:Matrix3x3::diagonalize"]}
{"id": "C79", "title": "Error messages tell the truth", "statement": "When a query between two known frames fails, the text names both frames of the query, target and source not mixed up, and is right: an extrapolation error quotes the time the query was about (for time zero: the latest common time) and the newest, oldest or only stamp of the frame at which the way up from the target (or, when that ends at a frame without parent, from the source) stops, and that frame really has no data for that time; a lookup error between known frames lists all frames; a connectivity error names the pair. Unusable names: the exception says which argument is empty, has a leading slash or does not exist, target before source before fixed frame. canTransform given an empty string fills it with exactly the text lookupTransform throws (through a fixed frame: of the first failing leg), appends one 'does not exist' per unknown name in order, and leaves the string alone on success. (Not so: a reason for empty or slashed names, and independence from what the string contained before.)", "quantifier": "all reachable buffers, frame names, times and error-string contents", "why_tests_cant": "ranges over all trees, histories and failure points; tests check the exception class at most", "anchors": ["tf2/src/buffer_core.cpp:BufferCore::walkToTopParent", "tf2/src/buffer_core.cpp:BufferCore::canTransform", "tf2/src/buffer_core.cpp:BufferCore::validateFrameId", "tf2/src/cache.cpp:TimeCache::findClosest"]}
{"id": "C80", "title": "Message filter with concurrent calls", "statement": "However calls of MessageFilter::add, clear and the setters, calls of setTransform with the callbacks they make, and other clients of the buffer interleave: no message gets two verdicts and each verdict is about a message that was added; each added message is at every moment in exactly one place (in a running add(), queued, reported, or lost to clear(), to an empty list of target frames or to an exception); the queue stays within the largest queue size set; a message is reported ready only if, between its add() and its verdict, each transform it needs could be had at some moment (while frames and tolerance are left alone); some thread can always go on, and without new calls all calls end; a call that runs alone behaves as the sequential properties say. (Not so: the readiness guarantee while setTargetFrames runs in another thread, and clear() with an add() running.)", "quantifier": "all numbers of threads, all schedules, all buffers, messages, transforms and settings", "why_tests_cant": "ranges over all interleavings of any number of threads; a test runs one schedule", "anchors": ["tf2_ros/include/tf2_ros/message_filter.h:MessageFilter::add", "tf2_ros/include/tf2_ros/message_filter.h:MessageFilter::transformable", "tf2_ros/include/tf2_ros/message_filter.h:MessageFilter::clear", "tf2_ros/include/tf2_ros/message_filter.h:MessageFilter::setTargetFrames", "tf2/src/buffer_core.cpp:BufferCore::testTransformableRequests"]}
{"id": "C81", "title": "New data does not rewrite the past", "statement": "After the buffer has received more time-varying data stamped later than t (and newer than what it held about each frame), a question about time t has the same answer as before: the same message, bit for bit, or no transform both times, and canTransform agrees; provided no frame that got data had its history ending before t and no data for t was pushed out of the storage time. If data was pushed out, an answer given afterwards is still the one given before; if data for t arrived late, an answer given before is still the one given afterwards; in particular a transform obtained as 'the latest' can be had again later by its stamp. (Bit for bit not at the exact stamp of a stored sample, where a copy turns into an interpolation at ratio 0.)", "quantifier": "all buffer states, all times t, all sequences of later messages (malformed ones included), all pairs of frames", "why_tests_cant": "ranges over every history before and after and every time; a test fixes one trajectory", "anchors": ["tf2/src/buffer_core.cpp:BufferCore::setTransform", "tf2/src/buffer_core.cpp:BufferCore::lookupTransform", "tf2/src/cache.cpp:TimeCache::insertData", "tf2/src/cache.cpp:TimeCache::findClosest", "tf2/src/cache.cpp:TimeCache::pruneList"]}
{"id": "C82", "title": "Concurrent calls on one buffer behave as if made one after the other", "statement": "However the calls of any number of threads on one buffer overlap, each call except the fixed-frame lookupTransform behaves as if it happened entirely at one moment between its invocation and its return: its answer and its effect are those it has alone on what the calls before it, in the order of these moments, left behind. The fixed-frame lookupTransform is answered from two moments during the call, the source side from the first and the target side from the second (or refuses a name unknown when it was made); it is the answer of one moment if only later time-varying data came in between, and otherwise can be a transform the buffer never held. While a thread is in a call some thread can go on; without new calls the threads cannot go on for ever, however they take turns, and every execution can be continued until all calls have returned.", "quantifier": "all numbers of threads, all programs of calls, all interleavings of their steps (each visit to the shared data and each lock or unlock is a step), unfinished calls included", "why_tests_cant": "ranges over every schedule of every set of concurrent calls; a test runs a few schedules it cannot choose", "anchors": ["tf2/src/buffer_core.cpp:BufferCore::setTransform", "tf2/src/buffer_core.cpp:BufferCore::clear", "tf2/src/buffer_core.cpp:BufferCore::lookupTransform", "tf2/src/buffer_core.cpp:BufferCore::canTransform", "tf2/src/buffer_core.cpp:BufferCore::allFramesAsString", "tf2/src/buffer_core.cpp:BufferCore::allFramesAsYAML", "tf2/src/buffer_core.cpp:BufferCore::_getParent", "tf2/src/buffer_core.cpp:BufferCore::_chainAsVector", "tf2/include/tf2/buffer_core.h:BufferCore::_getLatestCommonTime"]}
{"id": "C83", "title": "How accurate transformed points, vectors and quaternions are in binary64", "statement": "Transforming a point or a vector with a transform message, computed in double precision, gives finite numbers that differ from the exact rotation (by the quaternion in the message, normalized or not) and translation by at most 56 roundings (2^-53) of the length of the point plus 2 of the translation; a vector keeps its length up to 54 roundings; a rotated quaternion is within 33/4 roundings of the exact product. Looking a transform up over N links and applying it to a point gives the point carried by the exact composition of the stored transforms, up to an error linear in N relative to the point and quadratic in N relative to the longest link.", "quantifier": "all finite transforms whose quaternion has length between 1/2 and 2, all finite points up to 2^1000, all buffers whose links have quaternions within 2^-20 of unit length, input and output the same object or not", "why_tests_cant": "ranges over all doubles, all transforms and all chain lengths; a test compares a few points with a tolerance of its own choosing", "anchors": ["tf2_geometry_msgs/include/tf2_geometry_msgs/tf2_geometry_msgs.h:doTransform", "tf2/include/tf2/LinearMath/Matrix3x3.h:Matrix3x3::setRotation", "tf2/include/tf2/LinearMath/Transform.h:Transform::operator()", "tf2/src/buffer_core.cpp:BufferCore::lookupTransform"]}
{"id": "C84", "title": "Several message filters on one buffer", "statement": "Any number of message filters may share a buffer, come and go. Whatever the others do, each filter goes through a history it could have gone through alone with ordinary other clients of the buffer, so everything said of one filter holds of each. Constructing, destroying or calling one filter leaves the queue, settings, verdicts and pending requests of every other filter as they are. An accepted transform is offered to all of them: afterwards no filter holds a message all of whose transforms are available, no callback of a destroyed filter is called and setTransform answers what it would without filters. Destroying a filter leaves its callback registered for ever (never called): the table of callbacks grows with the number of filters destroyed. What does depend on the others: the order in which one filter's messages become ready; and one far-future stamp given to one filter makes every setTransform throw and strands messages of the others.", "quantifier": "all numbers of filters, all interleavings of constructions, destructions, calls on each filter, transforms and requests by other clients, from any state of the buffer, with the range conditions of C48 (request counter and callback table below 2^32, stamps within range)", "why_tests_cant": "ranges over all numbers and lifetimes of filters and all orders of their calls; a test constructs one or two filters", "anchors": ["tf2_ros/include/tf2_ros/message_filter.h:MessageFilter::~MessageFilter", "tf2_ros/include/tf2_ros/message_filter.h:MessageFilter::clear", "tf2_ros/include/tf2_ros/message_filter.h:MessageFilter::add", "tf2_ros/include/tf2_ros/message_filter.h:MessageFilter::transformable", "tf2/src/buffer_core.cpp:BufferCore::testTransformableRequests", "tf2/src/buffer_core.cpp:BufferCore::addTransformableCallback", "tf2/src/buffer_core.cpp:BufferCore::removeTransformableCallback"]}
{"id": "C85", "title": "How accurate transformed poses and composed transforms are in binary64", "statement": "Transforming a pose (or composing TransformStamped messages) in binary64 gives finite numbers: the orientation is within 251 roundings (2^-53) of the unit quaternion of the exact product, up to sign, whatever the lengths (1/2 to 2) of the two quaternions and whichever of the four branches recovers the quaternion from the matrix; the position is as accurate as a transformed point (C83). Converting a Transform message to a tf2 transform and back keeps the translation and returns the rotation within 106 roundings. A pose carried through N transforms (up to 2^20) drifts by at most 252 N roundings in orientation, keeps unit length within 251 roundings however large N is, and by at most 31 N (N+1) roundings of the largest translation in position. A pose transformed by a looked-up transform is within (43 M + 251) roundings in orientation, and 142 M of its distance plus 132 M^2 of the largest link translation in position, of the exact composition of the links (M = links + 1). A lookup through a fixed frame is within the same bounds of the exact composition of the links at the two times.", "quantifier": "all finite transforms and poses with quaternions of length between 1/2 and 2 and coordinates up to 2^1000, all aliasings of input and output, all sequences of up to 2^20 transforms, all reachable buffers with near-unit links, all pairs of times", "why_tests_cant": "a bound on rounding for every double; tests compare a few values with a loose tolerance", "anchors": ["tf2_geometry_msgs/include/tf2_geometry_msgs/tf2_geometry_msgs.h:doTransform(Pose)", "tf2_geometry_msgs/include/tf2_geometry_msgs/tf2_geometry_msgs.h:doTransform(TransformStamped)", "tf2/include/tf2/LinearMath/Matrix3x3.h:getRotation", "tf2/include/tf2/LinearMath/Matrix3x3.h:setRotation", "tf2/include/tf2/LinearMath/Transform.h:operator*", "tf2/src/buffer_core.cpp:BufferCore::lookupTransform"]}
{"id": "C86", "title": "User code called from inside setTransform, and the transforms-changed signal", "statement": "Request callbacks and transforms-changed listeners run without a lock and may make any call, setTransform included. However the calls nest, the buffer goes through an ordinary history of calls (so C30-C33 hold), and no callback is told about a request twice. As long as nothing throws: every notification owed is made exactly once before the outermost call returns; after an accepted transform its notifications come in order, each with everything it causes before the next, then the listeners likewise; a listener connected throughout is told exactly once per accepted transform. No listener is told more often, or while disconnected. clear() and rejected transforms are not signalled. A callback that throws leaves the transform stored, the remaining notifications lost and all listeners untold. Removing a callback from inside another one can make the buffer call through a dangling reference; this happens only if a callback is removed after the call that owed it a notification began, and never if the called user code removes no callbacks.", "quantifier": "all user code (any function of what happened so far to a list of calls), all programs outside, all depths of nesting, all histories", "why_tests_cant": "ranges over every behaviour of the user's callbacks and every nesting", "anchors": ["tf2/src/buffer_core.cpp:BufferCore::testTransformableRequests", "tf2/src/buffer_core.cpp:BufferCore::setTransform", "tf2/src/buffer_core.cpp:BufferCore::_addTransformsChangedListener", "tf2/src/buffer_core.cpp:BufferCore::_removeTransformsChangedListener", "tf2/src/buffer_core.cpp:BufferCore::removeTransformableCallback"]}
{"id": "C87", "title": "End to end: what a node looks up is what was broadcast", "statement": "In a network of broadcasters (static and not, C++ and Python) and nodes with a TransformListener each, over a transport that may lose, delay, repeat or reorder messages: whatever a node's lookup returns is the composition of links each of which was broadcast (a static frame's, one for exactly that time, an interpolation of two broadcast ones enclosing the time, or the earlier of two with different parents), leading from the source and target frames to a common frame. Two nodes that have received the same well-formed transforms - in any order, grouping or multiplicity; in particular two that have received everything published - give the same answers to lookupTransform, canTransform and the latest common time, provided their clocks never jumped back and the transforms for one frame are all static and equal, or all time-varying with different stamps unless equal. Contradicting publishers, or a clock that jumped back on one node, make nodes disagree.", "quantifier": "all numbers of broadcasters and nodes, all sequences of broadcasts and receipts, all clock readings, all lookups", "why_tests_cant": "ranges over every behaviour of the transport and every history", "anchors": ["tf2_ros/src/transform_broadcaster.cpp:TransformBroadcaster::sendTransform", "tf2_ros/src/static_transform_broadcaster.cpp:StaticTransformBroadcaster::sendTransform", "tf2_ros/src/tf2_ros/static_transform_broadcaster.py:StaticTransformBroadcaster.sendTransform", "tf2_ros/src/transform_listener.cpp:TransformListener::subscription_callback_impl", "tf2/src/buffer_core.cpp:BufferCore::lookupTransform"]}
{"id": "C88", "title": "Transform listeners come and go, several on one buffer", "statement": "In a process with any number of TransformListeners on one buffer, constructed with or without a thread of their own and destroyed at any time, however their steps interleave: the buffer is in the state its calls lead to one after the other; each listener does for the messages it takes exactly what it owes (clear the buffer if the clock went back since its last message, then set each transform in order) and no listener thread dies of an exception; it takes the messages queued for it in order, all of them if none is lost; after its destructor has returned it does nothing more; the destructor does return, after at most the round of callbacks the thread is in, whatever keeps arriving; whether queries may wait is decided by the last construction of a listener with a thread or the last setUsingDedicatedThread(). With steady clocks and publishers that do not contradict each other, how many listeners there are and how they interleave makes no difference to the answers. The permission to wait outlives the listener that gave it, and after a clock jump each listener clears the shared buffer anew.", "quantifier": "all numbers of listeners, all interleavings of construction, destruction, arrivals, losses, thread steps and clock readings", "why_tests_cant": "ranges over every interleaving of several threads with construction and destruction", "anchors": ["tf2_ros/src/transform_listener.cpp:TransformListener::~TransformListener", "tf2_ros/src/transform_listener.cpp:TransformListener::initWithThread", "tf2_ros/src/transform_listener.cpp:TransformListener::subscription_callback_impl", "tf2_ros/include/tf2_ros/transform_listener.h:TransformListener::dedicatedListenerThread", "tf2/include/tf2/buffer_core.h:BufferCore::setUsingDedicatedThread"]}
{"id": "C89", "title": "Looked-up poses move no faster than the data", "statement": "If the stored samples of every frame on a path move, from each to the next, at most at V metres and W radians per second and lie within L of their parents, then between any two times at which the lookup passes the same k links, the place to which it takes a point within rho changes by at most k*(V + W*(rho + k*L)) times the seconds between, and its orientation by at most k*W radians per second: interpolation and composition add no motion of their own and never take the longer way round. Read one link at a time the bounds are V and W. The numbers of the quaternion are not bound by this: with samples that carry one orientation with both signs they jump although nothing moves.", "quantifier": "all histories of unit quaternions, all pairs of times, all paths, all speeds and points (exact real arithmetic)", "why_tests_cant": "ranges over all trajectories and all pairs of instants; a jump between two samples shows only for particular data", "anchors": ["tf2/src/cache.cpp:TimeCache::interpolate", "tf2/src/cache.cpp:TimeCache::getData", "tf2/src/buffer_core.cpp:TransformAccum", "tf2/src/buffer_core.cpp:BufferCore::lookupTransform", "tf2/include/tf2/LinearMath/Quaternion.h:Quaternion::slerp"]}
{"id": "C90", "title": "How much a buffer keeps is bounded by its cache time", "statement": "Whatever is sent to it, in whatever order, a buffer keeps for each frame at most one sample per d nanoseconds of cache time, and one more, if the stamps of the messages for that frame that differ lie at least d apart; over all frames that much times the number of different child names in usable messages; and with no assumption on the traffic at most a sample per nanosecond of cache time. Static frames keep one sample. The frames known are exactly the different names in usable messages: refused messages and queries add none. clear() gives back the samples of the time-varying frames but no frame, no static sample and no pending request. Pending transformable requests have no bound: any number can wait, for ever, in a buffer that never had a transform.", "quantifier": "all histories of setTransform and clear, all cache times, all spacings, all numbers of requests", "why_tests_cant": "a bound on memory ranges over all histories, however long; a leak of one sample in some order of arrival does not show in a test", "anchors": ["tf2/src/cache.cpp:TimeCache::insertData", "tf2/src/cache.cpp:TimeCache::pruneList", "tf2/src/cache.cpp:TimeCache::clearList", "tf2/src/buffer_core.cpp:BufferCore::setTransform", "tf2/src/buffer_core.cpp:BufferCore::clear", "tf2/src/buffer_core.cpp:BufferCore::lookupOrInsertFrameNumber", "tf2/src/buffer_core.cpp:BufferCore::addTransformableRequest"]}
{"id": "C91", "title": "Python objects and reference counts in the bindings", "statement": "Given any object whatever, set_transform and set_transform_static either end the process or free nothing and change nothing but reference counts. If None comes back without an error the object was a message with all its fields of the right type, and the transform handed to the C++ buffer is that message; an object without a header, or with a property for any borrowed attribute, ends the process, a missing coordinate is a TypeError, and a coordinate that is no number reaches the buffer as -1 before the exception. Calls are not balanced: the classes Vector3 and Quaternion keep one more reference after every call. The message a lookup returns, and the lists of names, belong to the caller alone and carry what the C++ side gave: when the caller lets go of them the interpreter is as it was.", "quantifier": "all Python objects and interpreters, all messages, all lists, all numbers of calls", "why_tests_cant": "a reference too few shows only when some later object happens to reuse the memory, one too many only after long runs; tests cover a few objects", "anchors": ["tf2_py/src/tf2_py.cpp:setTransform", "tf2_py/src/tf2_py.cpp:setTransformStatic", "tf2_py/src/tf2_py.cpp:transform_converter", "tf2_py/src/tf2_py.cpp:rostime_converter", "tf2_py/src/tf2_py.cpp:checkTranslationType", "tf2_py/src/tf2_py.cpp:checkRotationType", "tf2_py/src/tf2_py.cpp:asListOfStrings", "tf2_py/src/python_compat.h:pythonBorrowAttrString", "tf2_py/src/python_compat.h:stringFromPython"]}
{"id": "C92", "title": "How accurate transformed wrenches and covariances are", "statement": "In binary64, moving a wrench turns the force to within 54 roundings of its length and leaves a torque within 56 roundings of the torque and 60 of |translation| |force| from the exact turned torque plus the moment of the turned force about the new origin. Every entry of a transformed covariance is within 151 roundings of the largest entry from the exact diag(R, R) C diag(R, R)^T, and nothing of the uninitialised output array is left. A symmetric covariance stays symmetric to within 302 roundings of its largest entry, not exactly. Quaternions may have any length from 1/2 to 2, and all numbers are finite and at most 2^1000.", "quantifier": "all transforms, wrenches and covariances of finite doubles up to 2^1000, quaternions of length 1/2 to 2, aliased arguments included", "why_tests_cant": "a test compares a few transforms to some tolerance; the bound must hold for all doubles, and the loss of symmetry shows only on some", "anchors": ["tf2_geometry_msgs/include/tf2_geometry_msgs/tf2_geometry_msgs.h:doTransform(Wrench)", "tf2_geometry_msgs/include/tf2_geometry_msgs/tf2_geometry_msgs.h:transformCovariance", "tf2/include/tf2/LinearMath/Matrix3x3.h:operator*", "tf2/include/tf2/LinearMath/Vector3.h:cross"]}
{"id": "C93", "title": "How accurate transformed point clouds are", "statement": "Transforming a PointCloud2 (little-endian binary32 coordinates) with a transform of doubles puts every valid point, in each coordinate, within 16 float roundings of the point's |x| + |y| + |z| and about two of the translation's coordinate from the exact image; the quaternion is not normalised, so a squared length off by d adds 2.1 d (|x| + |y| + |z|). A point with a non-finite coordinate has three of them afterwards, whatever the transform, and one with a NaN has three NaNs. The identity transform leaves the number in every coordinate exactly as it was.", "quantifier": "all clouds of any size and layout, all transforms of finite doubles with translation up to 2^100 and squared quaternion length within 1/100 of 1, all points up to 2^100, aliased arguments included", "why_tests_cant": "a test transforms a few points and compares to a tolerance; the bound must hold for every float point and every double transform", "anchors": ["tf2_sensor_msgs/include/tf2_sensor_msgs/tf2_sensor_msgs.h:doTransform"]}
{"id": "C94", "title": "End to end: what a remote client is told is what was broadcast", "statement": "With a BufferServer on a node whose TransformListener fills the buffer from a network of broadcasters (tf2_ros's buffer_server program), a lookup - simple or advanced - that a BufferClient makes and the server answers gives exactly what the node itself would have answered at some moment after the goal had come in: no answer is older than the question, and exceptions come back as they would be thrown there. A transform it returns is from the source to the target frame, for the time asked, and is composed of links that somebody broadcast for that time (or interpolates two enclosing it, or a static one); an advanced lookup's two legs are both so composed, from what the node knew at one moment.", "quantifier": "all networks of broadcasters, all deliveries (lost, late, repeated, reordered), all goals, cancelations, timer ticks and their interleaving with messages that come in while the server works, all questions, timeouts and scalar types", "why_tests_cant": "a test runs one schedule of publishers, server and client; the guarantee is over all of them", "anchors": ["tf2_ros/src/buffer_server.cpp:BufferServer", "tf2_ros/src/buffer_client.cpp:processGoal", "tf2_ros/src/transform_listener.cpp:subscription_callback", "tf2_ros/src/buffer_server_main.cpp:main"]}
{"id": "C95", "title": "End to end: a message filter's ready messages can be transformed, by what was broadcast", "statement": "Whatever order, repetition and clear()s put transforms into a buffer, a transform looked up in it is composed of links each of which was broadcast. On a node of a network of broadcasters, when a MessageFilter reports a message ready, the user's callback run there and then can look up the transform from the message's frame to every target frame, at the message's stamp and - if a tolerance is set - at the tolerance after it; and what it gets is composed of links somebody broadcast for that time (or interpolates two that enclose it, or a static one). Not so for a callback that runs later from a callback queue: the data may have left the buffer.", "quantifier": "all networks and deliveries, all filter histories (adds, settings, clears, other clients of the buffer), all messages, target frames and tolerances, stamps before 2038", "why_tests_cant": "a test runs one schedule of transforms and messages; the guarantee is over all histories", "anchors": ["tf2_ros/include/tf2_ros/message_filter.h:MessageFilter::add", "tf2_ros/include/tf2_ros/message_filter.h:MessageFilter::transformable", "tf2/src/buffer_core.cpp:BufferCore::setTransform", "tf2/src/buffer_core.cpp:BufferCore::lookupTransform"]}
{"id": "C96", "title": "The buffer_server program keeps transforms for as long as it is told to", "statement": "A buffer_size parameter with -2^31 <= s < 2^31 is accepted and becomes the buffer's cache time to the nearest nanosecond (within 3e-7 ns more), non-negative if s is; a larger or smaller one makes std::runtime_error leave main; without the parameter it is 120 s. The action is served under the fixed name tf2_buffer_server unless the node's name is asked for, tf2_frames only on request and unless such a service exists already. For every non-negative buffer_size, what a remote client is told by the program was broadcast, as in C94. A negative buffer_size is not refused: from then on every well-formed time-varying transform is accepted (setTransform returns true) and forgotten at once - no transform between two frames can ever be looked up.", "quantifier": "all finite doubles as buffer_size, all parameter settings; for the negative case all histories of time-varying transforms with stamps not below the size's magnitude, all pairs of frames, all times", "why_tests_cant": "tests start the program with a few settings; the claim is for every double and every history", "anchors": ["tf2_ros/src/buffer_server_main.cpp:main", "tf2_ros/src/buffer.cpp:Buffer::Buffer", "tf2/src/cache.cpp:TimeCache::pruneList", "tf2/src/cache.cpp:TimeCache::insertData"]}
{"id": "C97", "title": "The remaining LinearMath helpers do what their names say", "statement": "tf2Select returns its second argument for a non-zero condition and its third for zero, for every condition but 2^31 (the int and unsigned overloads negate INT_MIN there, which is undefined). tf2SwapEndian reverses the bytes of a 32 or 16 bit number, twice gives the number back; tf2SwapEndianFloat/tf2UnswapEndianFloat and the 8-byte versions are inverse to each other. maxAxis4, minAxis4 and closestAxis4 return the first of the greatest, least, greatest-in-magnitude components (-1 only if all are beyond 1e30; closestAxis4 never). tf2Min, tf2Max, GEN_clamped, GEN_clamp, tf2FuzzyZero, tf2Equal, tf2IsNegative, tf2Radians, tf2Degrees and tf2Fsel compute what they are named after; tf2GreaterEqual is strict: it is false for equal numbers. tf2Atan2Fast is within 1/8 rad of atan2 for every point but the origin. A transform serialized to (Double)Data and read back is the same; through FloatData every number keeps its value to single precision (exactly if it is a float already), and data read from floats is written back bit for bit.", "quantifier": "all conditions and values, all 32/16-bit numbers, all valid floats, all real vectors and numbers, all transforms of finite doubles up to 2^127", "why_tests_cant": "the claims range over all machine words, all floats and all reals", "anchors": ["tf2/include/tf2/LinearMath/Scalar.h:tf2Select", "tf2/include/tf2/LinearMath/Scalar.h:tf2SwapEndian", "tf2/include/tf2/LinearMath/Scalar.h:tf2Atan2Fast", "tf2/include/tf2/LinearMath/Vector3.h:tf2Vector4", "tf2/include/tf2/LinearMath/MinMax.h:GEN_clamp", "tf2/include/tf2/LinearMath/Transform.h:serializeFloat"]}
{"id": "C98", "title": "Yaw, pitch and roll do not depend on the type; the identity is the identity", "statement": "tf2::getEulerYPR and tf2::getYaw give the same for a tf2::Quaternion, a geometry_msgs Quaternion or QuaternionStamped, a Stamped tf2::Quaternion and Eigen quaternions holding the same four numbers, whatever stamp and frame; getYaw is the first of the three angles. The angles do not depend on the quaternion's length, and they give the rotation back when |sin pitch| < 0.99999. For a rotation about z by t in (-pi, pi], of any length and either sign of the quaternion, the result is (t, 0, 0). getTransformIdentity is exactly translation 0, rotation (0,0,0,1) in doubles, and transforming any finite point or vector up to 2^1023 by it changes no number.", "quantifier": "all types toQuaternion converts, all numbers, stamps and frames; all angles; all finite doubles up to 2^1023", "why_tests_cant": "test_utils.cpp tries one quaternion; the claim is for all", "anchors": ["tf2/include/tf2/utils.h:getEulerYPR", "tf2/include/tf2/utils.h:getYaw", "tf2/include/tf2/utils.h:getTransformIdentity", "tf2/include/tf2/impl/utils.h:toQuaternion"]}
{"id": "C99", "title": "Which buffer answers tf2_frames", "statement": "Of the tf2_ros Buffers a node constructs with debug, from any threads, the first to finish its constructor serves ~tf2_frames until it is destroyed, in Python for ever; every reply describes exactly what that buffer holds at that moment, and no reply comes from a buffer without debug or a destroyed C++ buffer. Python constructors that do not overlap do not raise. Refuted: that a node with a living debug buffer offers the service (in C++ nobody takes over from a destroyed one), that a discarded Python buffer stops answering, and that a Python constructor never raises (two at the same time can).", "quantifier": "all histories of constructing (in two steps that interleave), using and destroying buffers of one node, C++ and Python", "why_tests_cant": "which buffer serves depends on the order of all earlier constructions and destructions, and on thread interleaving", "anchors": ["tf2_ros/src/buffer.cpp:Buffer::Buffer", "tf2_ros/src/buffer.cpp:Buffer::getFrames", "tf2_ros/src/tf2_ros/buffer.py:Buffer.__init__", "tf2_ros/src/tf2_ros/buffer.py:Buffer.__get_frames"]}
{"id": "C100", "title": "Minimum, maximum, clamping and axes in doubles; NaN", "statement": "On finite doubles tf2Min, tf2Max, tf2SetMin, tf2SetMax and Vector3::setMin/setMax are exact, and maxAxis and minAxis name a coordinate that none exceeds or goes below. GEN_clamped and GEN_clamp between finite bounds give a finite number between them for every double but NaN, infinities included, and leave what is between them alone. tf2Acos and tf2Asin call acos and asin only with arguments in [-1, 1] unless given NaN. With a NaN, tf2Min and tf2Max return their second argument, setMin, setMax and the clamps keep the first; so a clamped NaN is out of every bounds and tf2Min is not symmetric.", "quantifier": "all doubles, including infinities and NaN; every libm", "why_tests_cant": "the order of arguments matters only for NaN; 2^128 pairs of doubles", "anchors": ["tf2/include/tf2/LinearMath/MinMax.h:tf2Min", "tf2/include/tf2/LinearMath/MinMax.h:tf2SetMin", "tf2/include/tf2/LinearMath/MinMax.h:GEN_clamp", "tf2/include/tf2/LinearMath/Scalar.h:tf2Acos", "tf2/include/tf2/LinearMath/Scalar.h:tf2Asin", "tf2/include/tf2/LinearMath/Vector3.h:maxAxis"]}
