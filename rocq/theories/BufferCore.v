(** * tf2::BufferCore (without the transformable-request machinery, see Requests.v)

    Model of tf2/src/buffer_core.cpp and tf2/include/tf2/buffer_core.h.
    Simplifications: every public call is one atomic step (frame_mutex_ is held throughout
    each of them; the exceptions are modelled in Concurrency files); logging is dropped;
    header.seq is dropped; CompactFrameID does not wrap at 2^32 frames. *)
From Coq Require Import ZArith Bool List String Ascii.
From Verif Require Import RosTime Scalar LinearMath Cache.
Import ListNotations.
Open Scope Z_scope.

(** tf2_msgs/msg/TF2Error.msg 1-7 *)
Inductive tf2_error :=
| NO_ERROR | LOOKUP_ERROR | CONNECTIVITY_ERROR | EXTRAPOLATION_ERROR
| INVALID_ARGUMENT_ERROR | TIMEOUT_ERROR | TRANSFORM_ERROR.

(** buffer_core.h 92: MAX_GRAPH_DEPTH *)
Definition MAX_GRAPH_DEPTH : nat := 1000.

(** buffer_core.cpp 104-110 startsWithSlash *)
Definition startsWithSlash (s : string) : bool :=
  match s with
  | String c _ => Ascii.eqb c "/"%char
  | EmptyString => false
  end.
(** buffer_core.cpp 112-118 stripSlash *)
Definition stripSlash (s : string) : string :=
  if startsWithSlash s then match s with String _ r => r | EmptyString => s end else s.

Definition NO_PARENT : string := "NO_PARENT".
Definition is_empty (s : string) : bool := match s with EmptyString => true | _ => false end.

Section BC.
Context {S : Scalar}.

Notation storage := (storage S nat).
Notation cache := (cache S nat).

(** geometry_msgs::TransformStamped without header.seq *)
Record tmsg := mkTmsg {
  tm_stamp : time;
  tm_frame : string;     (* header.frame_id *)
  tm_child : string;     (* child_frame_id *)
  tm_trans : vec3 S;
  tm_rot : quat S
}.

(** buffer_core.h 297-341: frames_, frameIDs_, frameIDs_reverse, frame_authority_, cache_time_.
    frameIDs_ and frame_authority_ are association lists, newest binding first. *)
Record core := mkCore {
  c_frames : list (option cache);
  c_ids : list (string * nat);
  c_rev : list string;
  c_auth : list (nat * string);
  c_cache_time : duration
}.

(** buffer_core.cpp 169-178 constructor *)
Definition init_core (cache_time : duration) : core :=
  {| c_frames := [None]; c_ids := [(NO_PARENT, 0%nat)]; c_rev := [NO_PARENT];
     c_auth := []; c_cache_time := cache_time |}.

Fixpoint assoc (k : string) (l : list (string * nat)) : option nat :=
  match l with
  | [] => None
  | (k', v) :: l' => if String.eqb k k' then Some v else assoc k l'
  end.

(** buffer_core.cpp 889-897 getFrame *)
Definition getFrame (s : core) (id : nat) : option cache :=
  match nth_error (c_frames s) id with Some o => o | None => None end.

(** buffer_core.cpp 899-910 lookupFrameNumber *)
Definition lookupFrameNumber (s : core) (name : string) : nat :=
  match assoc name (c_ids s) with Some id => id | None => 0%nat end.

(** buffer_core.cpp 912-927 lookupOrInsertFrameNumber *)
Definition lookupOrInsertFrameNumber (s : core) (name : string) : core * nat :=
  match assoc name (c_ids s) with
  | Some id => (s, id)
  | None =>
      let id := List.length (c_frames s) in
      ({| c_frames := c_frames s ++ [None];
          c_ids := (name, id) :: c_ids s;
          c_rev := c_rev s ++ [name];
          c_auth := c_auth s; c_cache_time := c_cache_time s |}, id)
  end.

(** buffer_core.cpp 929-939 lookupFrameString *)
Definition lookupFrameString (s : core) (id : nat) : res string :=
  match nth_error (c_rev s) id with
  | Some n => Ok n
  | None => Throw LookupException (EReverse id)
  end.

(** frames_[id] = c (vector assignment; id is in range at every use) *)
Fixpoint list_set {A} (l : list A) (i : nat) (x : A) : list A :=
  match l, i with
  | [], _ => []
  | _ :: l', O => x :: l'
  | y :: l', Datatypes.S i' => y :: list_set l' i' x
  end.
Definition setFrame (s : core) (id : nat) (c : cache) : core :=
  {| c_frames := list_set (c_frames s) id (Some c); c_ids := c_ids s; c_rev := c_rev s;
     c_auth := c_auth s; c_cache_time := c_cache_time s |}.
Definition setAuthority (s : core) (id : nat) (a : string) : core :=
  {| c_frames := c_frames s; c_ids := c_ids s; c_rev := c_rev s;
     c_auth := (id, a) :: c_auth s; c_cache_time := c_cache_time s |}.

(** buffer_core.cpp 142-167 validateFrameId *)
Definition validateFrameId (s : core) (arg name : string) : res nat :=
  if is_empty name then Throw InvalidArgumentException (EEmptyFrameId arg)
  else if startsWithSlash name then Throw InvalidArgumentException (ESlashFrameId arg name)
  else
    let id := lookupFrameNumber s name in
    if Nat.eqb id 0 then Throw LookupException (ENoSuchFrame arg name) else Ok id.

(** buffer_core.cpp 121-140 warnFrameId (logging dropped) *)
Definition warnFrameId (name : string) : bool := is_empty name || startsWithSlash name.

(** buffer_core.cpp 185-200 clear *)
Definition clear (s : core) : core :=
  {| c_frames :=
       match c_frames s with
       | [] => []
       | f0 :: fs => f0 :: map (option_map clearList) fs
       end;
     c_ids := c_ids s; c_rev := c_rev s; c_auth := c_auth s; c_cache_time := c_cache_time s |}.

(** buffer_core.cpp 232-233: any component NaN *)
Definition has_nan (m : tmsg) : bool :=
  sisnan (vx (tm_trans m)) || sisnan (vy (tm_trans m)) || sisnan (vz (tm_trans m))
  || sisnan (qx (tm_rot m)) || sisnan (qy (tm_rot m)) || sisnan (qz (tm_rot m))
  || sisnan (qw (tm_rot m)).

(** buffer_core.cpp 47 and 243-246: quaternion norm check; 10e-3 = 1/100 *)
Definition quat_valid (q : quat S) : bool :=
  (sabs (qw q * qw q + qx q * qx q + qy q * qy q + qz q * qz q - sone) <? slit 1 100)%S.

(** buffer_core.cpp 213-215: the stripped copy *)
Definition strip_msg (m : tmsg) : tmsg :=
  {| tm_stamp := tm_stamp m; tm_frame := stripSlash (tm_frame m);
     tm_child := stripSlash (tm_child m); tm_trans := tm_trans m; tm_rot := tm_rot m |}.

(** buffer_core.cpp 218-257: error_exists, on the stripped message *)
Definition setTransform_error (m : tmsg) : bool :=
  String.eqb (tm_child m) (tm_frame m) || is_empty (tm_child m) || is_empty (tm_frame m)
  || has_nan m || negb (quat_valid (tm_rot m)).

(** cache.cpp 46-57 TransformStorage(TransformStamped, frame_id, child_frame_id) *)
Definition mk_storage (m : tmsg) (frame child : nat) : storage :=
  {| st_rot := tm_rot m; st_trans := tm_trans m; st_stamp := tm_stamp m;
     st_frame := frame; st_child := child |}.

(** buffer_core.cpp 289-299 allocateFrame *)
Definition new_cache (s : core) (is_static : bool) : cache :=
  if is_static then Static None else Dynamic (c_cache_time s) [].

(** buffer_core.cpp 202-287 setTransform, up to (not including) the call of
    testTransformableRequests, which runs iff the result is [Ok true]. *)
Definition setTransform (s : core) (m0 : tmsg) (authority : string) (is_static : bool)
  : core * res bool :=
  let m := strip_msg m0 in
  if setTransform_error m then (s, Ok false)
  else
    let '(s1, child) := lookupOrInsertFrameNumber s (tm_child m) in
    let '(s2, c) :=
      match getFrame s1 child with
      | Some c => (s1, c)
      | None => let c := new_cache s1 is_static in (setFrame s1 child c, c)
      end in
    let '(s3, parent) := lookupOrInsertFrameNumber s2 (tm_frame m) in
    let '(c', r) := insertData c (mk_storage m parent child) in
    let s4 := setFrame s3 child c' in
    match r with
    | Ok Inserted => (setAuthority s4 child authority, Ok true)
    | Ok (Rejected _) => (s4, Ok false)
    | Throw cl e => (s4, Throw cl e)
    | UB => (s4, UB)
    end.

(** buffer_core.cpp 958-983 allFramesAsStringNoLock *)
Definition newline : string := String (ascii_of_nat 10) EmptyString.
Fixpoint allFrames_from (s : core) (fs : list (option cache)) (counter : nat) : res string :=
  match fs with
  | [] => Ok EmptyString
  | None :: fs' => allFrames_from s fs' (Datatypes.S counter)
  | Some c :: fs' =>
      ' (o, _) <- getData Nat.eqb c 0 None ;;
      let pid := match o with Some d => st_frame d | None => 0%nat end in
      match nth_error (c_rev s) counter, nth_error (c_rev s) pid with
      | Some n, Some p =>
          rest <- allFrames_from s fs' (Datatypes.S counter) ;;
          Ok ("Frame " ++ n ++ " exists with parent " ++ p ++ "." ++ newline ++ rest)%string
      | _, _ => UB    (* vector out of range *)
      end
  end.
Definition allFramesAsString (s : core) : res string := allFrames_from s (tl (c_frames s)) 1.

(** buffer_core.cpp 379-383 and the like: the loop message, only built when a string is wanted *)
Definition loop_error (s : core) (err : errp) : res errp :=
  match err with
  | None => Ok None
  | Some _ => str <- allFramesAsString s ;; Ok (Some (ELoop str))
  end.

(** buffer_core.cpp 941-950 createConnectivityErrorString *)
Definition connectivity_error (s : core) (source target : nat) (err : errp) : res errp :=
  match err with
  | None => Ok None
  | Some _ =>
      tn <- lookupFrameString s target ;;
      sn <- lookupFrameString s source ;;
      Ok (Some (EConnectivity tn sn))
  end.

(** ** getLatestCommonTime, buffer_core.cpp 999-1166 *)

(** The parent id a cache reports: 0 for "no data". *)
Definition parent_id (o : option nat) : nat := match o with Some p => p | None => 0%nat end.

Definition time_or_zero (t : time) : time := if t =? TIME_MAX then 0 else t.
Definition min_nonzero (stamp common : time) : time :=
  if stamp =? 0 then common else Z.min stamp common.

Inductive lct_src := LSdone (t : time) | LSend (lct : list (time * nat)) | LSloop.

(** 1026-1074; [fuel] counts down from MAX_GRAPH_DEPTH as depth counts up *)
Fixpoint lctSource (fuel : nat) (s : core) (target frame : nat) (common : time)
    (lct : list (time * nat)) : res lct_src :=
  if Nat.eqb frame 0 then Ok (LSend lct)
  else match getFrame s frame with
  | None => Ok (LSend lct)
  | Some c =>
      ' (stamp, po) <- getLatestTimeAndParent c ;;
      let parent := parent_id po in
      if Nat.eqb parent 0 then Ok (LSend lct)
      else
        let common' := min_nonzero stamp common in
        let lct' := lct ++ [(stamp, parent)] in
        if Nat.eqb parent target then Ok (LSdone (time_or_zero common'))
        else match fuel with
             | O => Ok LSloop
             | Datatypes.S fuel' => lctSource fuel' s target parent common' lct'
             end
  end.

Inductive lct_tgt := LTdone (t : time) | LTcommon (p : nat) (t : time) | LTend | LTloop.

(** 1076-1134 *)
Fixpoint lctTarget (fuel : nat) (s : core) (source : nat) (lct : list (time * nat))
    (frame : nat) (common : time) : res lct_tgt :=
  match getFrame s frame with
  | None => Ok LTend
  | Some c =>
      ' (stamp, po) <- getLatestTimeAndParent c ;;
      let parent := parent_id po in
      if Nat.eqb parent 0 then Ok LTend
      else
        let common' := min_nonzero stamp common in
        if existsb (fun p => Nat.eqb (snd p) parent) lct then Ok (LTcommon parent common')
        else if Nat.eqb parent source then Ok (LTdone (time_or_zero common'))
        else match fuel with
             | O => Ok LTloop
             | Datatypes.S fuel' => lctTarget fuel' s source lct parent common'
             end
  end.

(** 1142-1157: minimum over the source list up to and including the common parent *)
Fixpoint lctMerge (lct : list (time * nat)) (common_parent : nat) (common : time) : time :=
  match lct with
  | [] => common
  | (stamp, p) :: lct' =>
      let common' := if stamp =? 0 then common else Z.min common stamp in
      if Nat.eqb p common_parent then common' else lctMerge lct' common_parent common'
  end.

(** 999-1166; the [time] out-parameter is [Some t] exactly when it was assigned *)
Definition getLatestCommonTime (s : core) (target source : nat) (err : errp)
  : res (tf2_error * option time * errp) :=
  if Nat.eqb source 0 || Nat.eqb target 0 then Ok (LOOKUP_ERROR, None, err)
  else if Nat.eqb source target then
    Ok (NO_ERROR,
        Some (match getFrame s source with Some c => getLatestTimestamp c | None => 0 end), err)
  else
    rs <- lctSource MAX_GRAPH_DEPTH s target source TIME_MAX [] ;;
    match rs with
    | LSdone t => Ok (NO_ERROR, Some t, err)
    | LSloop => err' <- loop_error s err ;; Ok (LOOKUP_ERROR, None, err')
    | LSend lct =>
        rt <- lctTarget MAX_GRAPH_DEPTH s source lct target TIME_MAX ;;
        match rt with
        | LTdone t => Ok (NO_ERROR, Some t, err)
        | LTloop => err' <- loop_error s err ;; Ok (LOOKUP_ERROR, None, err')
        | LTend => err' <- connectivity_error s source target err ;;
                   Ok (CONNECTIVITY_ERROR, None, err')
        | LTcommon p t => Ok (NO_ERROR, Some (time_or_zero (lctMerge lct p t)), err)
        end
    end.

(** ** walkToTopParent, buffer_core.cpp 310-512 *)

(** 301-307 *)
Inductive walk_ending := Identity | TargetParentOfSource | SourceParentOfTarget | FullPath.

Section Walk.
(** The template parameter F of walkToTopParent and its three members. *)
Context {A : Type}
  (gather : A -> cache -> time -> errp -> res (A * nat * errp))
  (accum : A -> bool -> A)
  (finalize : A -> walk_ending -> time -> A).

Inductive src_result :=
| SDone (a : A) (chain : list nat)
| STop (a : A) (top_parent : nat) (ext : errp) (might_extrapolate : bool) (chain : list nat)
| SLoop.

(** 341-392: walk from the source to the root *)
Fixpoint walkSource (fuel : nat) (s : core) (t : time) (target frame top : nat) (a : A)
    (ext : errp) (chain : list nat) : res src_result :=
  if Nat.eqb frame 0 then Ok (STop a top ext false chain)
  else
    let chain := chain ++ [frame] in
    match getFrame s frame with
    | None => Ok (STop a frame ext false chain)
    | Some c =>
        ' (a, parent, ext) <- gather a c t ext ;;
        if Nat.eqb parent 0 then Ok (STop a frame ext true chain)
        else if Nat.eqb frame target then Ok (SDone (finalize a TargetParentOfSource t) chain)
        else
          let a := accum a true in
          match fuel with
          | O => Ok SLoop
          | Datatypes.S fuel' => walkSource fuel' s t target parent frame a ext chain
          end
    end.

Inductive tgt_result :=
| TDone (a : A) (rchain : list nat)
| TStop (a : A) (frame : nat) (err : errp) (rchain : list nat)
| TExtrap (err : errp)
| TLoop (err : errp).

(** 394-454: walk from the target to the top parent *)
Fixpoint walkTarget (fuel : nat) (s : core) (t : time) (source top frame : nat) (a : A)
    (err : errp) (rchain : list nat) : res tgt_result :=
  if Nat.eqb frame top then Ok (TStop a frame err rchain)
  else
    let rchain := rchain ++ [frame] in
    match getFrame s frame with
    | None => Ok (TStop a frame err rchain)
    | Some c =>
        ' (a, parent, err) <- gather a c t err ;;
        if Nat.eqb parent 0 then Ok (TExtrap err)
        else if Nat.eqb frame source then Ok (TDone (finalize a SourceParentOfTarget t) rchain)
        else
          let a := accum a false in
          match fuel with
          | O => Ok (TLoop err)
          | Datatypes.S fuel' => walkTarget fuel' s t source top parent a err rchain
          end
    end.

(** 412-418, 458-464: decorate an extrapolation message *)
Definition when_error (s : core) (source target : nat) (text : etext) (err : errp) : res errp :=
  match err with
  | None => Ok None
  | Some _ =>
      sn <- lookupFrameString s source ;;
      tn <- lookupFrameString s target ;;
      Ok (Some (EWhenLookingUp text sn tn))
  end.

(** 484-509: trim the common tail of the two chains and join them.
    [k] = number of equal trailing elements, so n = len fc - 1 - k and m = len rc - 1 - k. *)
Fixpoint common_prefix (l1 l2 : list nat) : nat :=
  match l1, l2 with
  | x :: l1', y :: l2' => if Nat.eqb x y then Datatypes.S (common_prefix l1' l2') else 0%nat
  | _, _ => 0%nat
  end.
Definition prune_chain (fc rc : list nat) : res (list nat) :=
  let k := common_prefix (rev fc) (rev rc) in
  let n := Z.of_nat (List.length fc) - 1 - Z.of_nat k in
  let m := Z.of_nat (List.length rc) - 1 - Z.of_nat k in
  let tail := rev (firstn (Z.to_nat (m + 1)) rc) in
  if 0 <? n then
    if Z.of_nat (List.length fc) <? n + 2 then UB       (* erase(begin()+n+2, end()) past the end *)
    else Ok (firstn (Z.to_nat (n + 2)) fc ++ tail)
  else Ok (fc ++ tail).

(** 318-512 *)
Definition walkToTopParent (s : core) (t0 : time) (target source : nat) (a0 : A) (err : errp)
  : res (tf2_error * A * errp * list nat) :=
  if Nat.eqb source target then Ok (NO_ERROR, finalize a0 Identity t0, err, [])
  else
    ' (code, t, err) <-
      (if t0 =? 0 then
         ' (code, ot, err) <- getLatestCommonTime s target source err ;;
         Ok (code, match ot with Some t => t | None => t0 end, err)
       else Ok (NO_ERROR, t0, err)) ;;
    match code with
    | NO_ERROR =>
        let ext := match err with Some _ => Some EEmpty | None => None end in
        rs <- walkSource MAX_GRAPH_DEPTH s t target source source a0 ext [] ;;
        match rs with
        | SDone a chain => Ok (NO_ERROR, a, err, chain)
        | SLoop => err' <- loop_error s err ;; Ok (LOOKUP_ERROR, a0, err', [])
        | STop a top ext might chain =>
            rt <- walkTarget MAX_GRAPH_DEPTH s t source top target a err [] ;;
            match rt with
            | TDone a rchain => Ok (NO_ERROR, a, err, rev rchain)
            | TLoop e => err' <- loop_error s e ;; Ok (LOOKUP_ERROR, a0, err', [])
            | TExtrap e =>
                err' <- when_error s source target
                          (match e with Some x => x | None => EEmpty end) e ;;
                Ok (EXTRAPOLATION_ERROR, a0, err', [])
            | TStop a frame e rchain =>
                if Nat.eqb frame top then
                  chain' <- prune_chain chain (rchain ++ [frame]) ;;
                  Ok (NO_ERROR, finalize a FullPath t, e, chain')
                else if might then
                  err' <- when_error s source target
                            (match ext with Some x => x | None => EEmpty end) e ;;
                  Ok (EXTRAPOLATION_ERROR, a0, err', [])
                else
                  err' <- connectivity_error s source target e ;;
                  Ok (CONNECTIVITY_ERROR, a0, err', [])
            end
        end
    | _ => Ok (code, a0, err, [])
    end.
End Walk.

(** buffer_core.cpp 516-593 TransformAccum *)
Record taccum := mkTaccum {
  ta_st : option storage;          (* [None]: st not yet written *)
  ta_time : time;
  ta_sq : quat S; ta_sv : vec3 S;  (* source_to_top *)
  ta_tq : quat S; ta_tv : vec3 S;  (* target_to_top *)
  ta_rq : quat S; ta_rv : vec3 S   (* result *)
}.
Definition taccum0 : taccum :=
  {| ta_st := None; ta_time := 0; ta_sq := qidentity; ta_sv := vzero; ta_tq := qidentity;
     ta_tv := vzero; ta_rq := qidentity; ta_rv := vzero |}.

(** 528-536 *)
Definition ta_gather (a : taccum) (c : cache) (t : time) (err : errp) : res (taccum * nat * errp) :=
  ' (o, err') <- getData Nat.eqb c t err ;;
  match o with
  | None => Ok (a, 0%nat, err')
  | Some d =>
      Ok ({| ta_st := Some d; ta_time := ta_time a; ta_sq := ta_sq a; ta_sv := ta_sv a;
             ta_tq := ta_tq a; ta_tv := ta_tv a; ta_rq := ta_rq a; ta_rv := ta_rv a |},
          st_frame d, err')
  end.

(** 538-550; accum is only called right after a successful gather *)
Definition ta_accum (a : taccum) (source : bool) : taccum :=
  match ta_st a with
  | None => a
  | Some d =>
      if source then
        {| ta_st := ta_st a; ta_time := ta_time a;
           ta_sv := vadd (quatRotate (st_rot d) (ta_sv a)) (st_trans d);
           ta_sq := qmul (st_rot d) (ta_sq a);
           ta_tq := ta_tq a; ta_tv := ta_tv a; ta_rq := ta_rq a; ta_rv := ta_rv a |}
      else
        {| ta_st := ta_st a; ta_time := ta_time a; ta_sq := ta_sq a; ta_sv := ta_sv a;
           ta_tv := vadd (quatRotate (st_rot d) (ta_tv a)) (st_trans d);
           ta_tq := qmul (st_rot d) (ta_tq a);
           ta_rq := ta_rq a; ta_rv := ta_rv a |}
  end.

(** 552-582 *)
Definition ta_finalize (a : taccum) (e : walk_ending) (t : time) : taccum :=
  let inv_q := qinv (ta_tq a) in
  let inv_v := quatRotate inv_q (vneg (ta_tv a)) in
  let '(rq, rv) :=
    match e with
    | Identity => (ta_rq a, ta_rv a)
    | TargetParentOfSource => (ta_sq a, ta_sv a)
    | SourceParentOfTarget => (inv_q, inv_v)
    | FullPath => (qmul inv_q (ta_sq a), vadd (quatRotate inv_q (ta_sv a)) inv_v)
    end in
  {| ta_st := ta_st a; ta_time := t; ta_sq := ta_sq a; ta_sv := ta_sv a; ta_tq := ta_tq a;
     ta_tv := ta_tv a; ta_rq := rq; ta_rv := rv |}.

(** buffer_core.cpp 741-757 CanTransformAccum *)
Definition ca_gather (a : unit) (c : cache) (t : time) (err : errp) : res (unit * nat * errp) :=
  ' (o, err') <- getParent c t err ;; Ok (tt, parent_id o, err').
Definition ca_accum (a : unit) (source : bool) : unit := tt.
Definition ca_finalize (a : unit) (e : walk_ending) (t : time) : unit := tt.

(** buffer_core.cpp 618-633: error code to exception *)
Definition throw_code {B} (code : tf2_error) (err : errp) : res B :=
  let e := match err with Some e => e | None => EEmpty end in
  match code with
  | CONNECTIVITY_ERROR => Throw ConnectivityException e
  | EXTRAPOLATION_ERROR => Throw ExtrapolationException e
  | LOOKUP_ERROR => Throw LookupException e
  | _ => UB      (* assert(0), then falls through *)
  end.

(** buffer_core.cpp 595-648 lookupTransform *)
Definition lookupTransform (s : core) (target_frame source_frame : string) (t : time)
  : res tmsg :=
  if String.eqb target_frame source_frame then
    Ok {| tm_stamp :=
            if t =? 0 then
              match getFrame s (lookupFrameNumber s target_frame) with
              | Some c => getLatestTimestamp c
              | None => t
              end
            else t;
          tm_frame := target_frame; tm_child := source_frame;
          tm_trans := vzero; tm_rot := qidentity |}
  else
    target <- validateFrameId s "lookupTransform argument target_frame" target_frame ;;
    source <- validateFrameId s "lookupTransform argument source_frame" source_frame ;;
    ' (code, a, err, _) <- walkToTopParent ta_gather ta_accum ta_finalize
                             s t target source taccum0 (Some EEmpty) ;;
    match code with
    | NO_ERROR =>
        Ok {| tm_stamp := ta_time a; tm_frame := target_frame; tm_child := source_frame;
              tm_trans := ta_rv a; tm_rot := ta_rq a |}
    | _ => throw_code code err
    end.

(** buffer_core.cpp 50-51 transformMsgToTF2 *)
Definition msg_to_tf2 (m : tmsg) : xform S := xfromQuat (tm_rot m) (tm_trans m).

(** buffer_core.cpp 651-673 lookupTransform through a fixed frame *)
Definition lookupTransformFixed (s : core) (target_frame : string) (target_time : time)
    (source_frame : string) (source_time : time) (fixed_frame : string) : res tmsg :=
  _ <- validateFrameId s "lookupTransform argument target_frame" target_frame ;;
  _ <- validateFrameId s "lookupTransform argument source_frame" source_frame ;;
  _ <- validateFrameId s "lookupTransform argument fixed_frame" fixed_frame ;;
  temp1 <- lookupTransform s fixed_frame source_frame source_time ;;
  temp2 <- lookupTransform s target_frame fixed_frame target_time ;;
  let x := xmul (msg_to_tf2 temp2) (msg_to_tf2 temp1) in
  Ok {| tm_stamp := tm_stamp temp2; tm_frame := target_frame; tm_child := source_frame;
        tm_trans := xorigin x; tm_rot := xgetRotation x |}.

Definition append_err (err : errp) (e : etext) : errp :=
  match err with Some old => Some (EAppend old e) | None => None end.

(** buffer_core.cpp 759-794 canTransformNoLock *)
Definition canTransformNoLock (s : core) (target source : nat) (t : time) (err : errp)
  : res (bool * errp) :=
  if Nat.eqb target 0 || Nat.eqb source 0 then
    err1 <- (if Nat.eqb target 0 then
               match err with
               | None => Ok None
               | Some _ => n <- lookupFrameString s target ;;
                           Ok (append_err err (ENoSuchFrame "target_frame" n))
               end
             else Ok err) ;;
    err2 <- (if Nat.eqb source 0 then
               match err1 with
               | None => Ok None
               | Some _ => n <- lookupFrameString s source ;;
                           Ok (append_err err1 (ENoSuchFrame "source_frame" n))
               end
             else Ok err1) ;;
    Ok (false, err2)
  else if Nat.eqb target source then Ok (true, err)
  else
    ' (code, _, err', _) <- walkToTopParent ca_gather ca_accum ca_finalize
                              s t target source tt err ;;
    match code with NO_ERROR => Ok (true, err') | _ => Ok (false, err') end.

(** buffer_core.cpp 820-838: message for unknown frames *)
Definition missing_err (target source : nat) (tn sn : string) (err : errp) : errp :=
  let err1 := if Nat.eqb target 0 then append_err err (ENoSuchFrame "canTransform: target_frame" tn) else err in
  if Nat.eqb source 0 then append_err err1 (ENoSuchFrame "canTransform: source_frame" sn) else err1.

(** buffer_core.cpp 803-840 canTransform *)
Definition canTransform (s : core) (target_frame source_frame : string) (t : time) (err : errp)
  : res (bool * errp) :=
  if String.eqb target_frame source_frame then Ok (true, err)
  else if warnFrameId target_frame then Ok (false, err)
  else if warnFrameId source_frame then Ok (false, err)
  else
    let target := lookupFrameNumber s target_frame in
    let source := lookupFrameNumber s source_frame in
    if Nat.eqb target 0 || Nat.eqb source 0 then
      Ok (false, missing_err target source target_frame source_frame err)
    else canTransformNoLock s target source t err.

(** buffer_core.cpp 842-886 canTransform through a fixed frame *)
Definition canTransformFixed (s : core) (target_frame : string) (target_time : time)
    (source_frame : string) (source_time : time) (fixed_frame : string) (err : errp)
  : res (bool * errp) :=
  if warnFrameId target_frame then Ok (false, err)
  else if warnFrameId source_frame then Ok (false, err)
  else if warnFrameId fixed_frame then Ok (false, err)
  else
    let target := lookupFrameNumber s target_frame in
    let source := lookupFrameNumber s source_frame in
    let fixed := lookupFrameNumber s fixed_frame in
    if Nat.eqb target 0 || Nat.eqb source 0 || Nat.eqb fixed 0 then
      let err1 := missing_err target source target_frame source_frame err in
      Ok (false, if Nat.eqb fixed 0 then append_err err1 (ENoSuchFrame "fixed_frame" fixed_frame) else err1)
    else
      ' (b, err') <- canTransformNoLock s target fixed target_time err ;;
      if b then canTransformNoLock s fixed source source_time err' else Ok (false, err').

(** buffer_core.cpp 1368-1372 _frameExists *)
Definition frameExists (s : core) (name : string) : bool :=
  match assoc name (c_ids s) with Some _ => true | None => false end.

(** buffer_core.cpp 1374-1390 _getParent; [Ok None] = returns false *)
Definition getParentName (s : core) (name : string) (t : time) : res (option string) :=
  match getFrame s (lookupFrameNumber s name) with
  | None => Ok None
  | Some c =>
      ' (o, _) <- getParent c t None ;;
      let pid := parent_id o in
      if Nat.eqb pid 0 then Ok None
      else n <- lookupFrameString s pid ;; Ok (Some n)
  end.

(** buffer_core.cpp 1392-1406 _getFrameStrings *)
Definition getFrameStrings (s : core) : list string := tl (c_rev s).

Fixpoint map_res {X Y} (f : X -> res Y) (l : list X) : res (list Y) :=
  match l with
  | [] => Ok []
  | x :: l' => y <- f x ;; ys <- map_res f l' ;; Ok (y :: ys)
  end.

(** buffer_core.cpp 1583-1654 _chainAsVector *)
Definition chainAsVector (s : core) (target_frame : string) (target_time : time)
    (source_frame : string) (source_time : time) (fixed_frame : string) : res (list string) :=
  let source := lookupFrameNumber s source_frame in
  let fixed := lookupFrameNumber s fixed_frame in
  let target := lookupFrameNumber s target_frame in
  ' (code1, a, err, chain1) <- walkToTopParent ta_gather ta_accum ta_finalize
                                 s source_time fixed source taccum0 (Some EEmpty) ;;
  match code1 with
  | NO_ERROR =>
      ' (code2, _, err2, chain2) <- walkToTopParent ta_gather ta_accum ta_finalize
                                      s target_time target fixed a err ;;
      match code2 with
      | NO_ERROR =>
          let chain1' :=
            match rev chain1, chain2 with
            | x :: r, y :: _ => if Nat.eqb x y then rev r else chain1
            | _, _ => chain1
            end in
          map_res (lookupFrameString s) (chain1' ++ chain2)
      | _ => throw_code code2 err2
      end
  | _ => throw_code code1 err
  end.
End BC.

Arguments tmsg : clear implicits.
Arguments core : clear implicits.
