(** * Per-frame transform histories: tf2::TimeCache and tf2::StaticCache

    Model of tf2/src/cache.cpp, tf2/src/static_cache.cpp, tf2/include/tf2/time_cache.h and
    tf2/include/tf2/transform_storage.h.

    The frame-id type [F] is a parameter (CompactFrameID in the buffer; names in the
    specification), together with its equality test. *)
From Coq Require Import ZArith Bool List.
From Verif Require Import RosTime Scalar LinearMath.
Import ListNotations.
Open Scope Z_scope.

Section Cache.
Context {S : Scalar} {F : Type} (feqb : F -> F -> bool).

(** transform_storage.h 53-81 *)
Record storage := mkStorage {
  st_rot : quat S;
  st_trans : vec3 S;
  st_stamp : time;
  st_frame : F;          (* parent: frame_id_ *)
  st_child : F           (* child_frame_id_ *)
}.

(** time_cache.h 91-137 TimeCache (storage_ newest first, a std::deque; max_storage_time_)
    and time_cache.h 139-158 StaticCache ([None]: storage_ not yet written; the constructor
    leaves it uninitialised). *)
Inductive cache :=
| Dynamic (max_storage : duration) (l : list storage)
| Static (o : option storage).

(** Result of findClosest: 0, 1 or 2 nodes. *)
Inductive closest :=
| Found0
| Found1 (one : storage)
| Found2 (one two : storage).

(** A std::string* out-parameter: [None] = NULL, [Some e] = points to text [e]. *)
Definition errp := option etext.
Definition set_err (err : errp) (e : etext) : errp :=
  match err with Some _ => Some e | None => None end.

(** cache.cpp 65-103: the three error helpers.  Helpers 2 and 3 subtract the times, which
    can throw, but only when a string was supplied. *)
Definition extrap1 (t0 t1 : time) (err : errp) : res errp :=
  Ok (set_err err (EExtrapOnly t0 t1)).
Definition extrap2 (t0 t1 : time) (err : errp) : res errp :=
  match err with
  | None => Ok None
  | Some _ => _ <- lift_time (time_sub t0 t1) ;; Ok (Some (EExtrapFuture t0 t1))
  end.
Definition extrap3 (t0 t1 : time) (err : errp) : res errp :=
  match err with
  | None => Ok None
  | Some _ => _ <- lift_time (time_sub t1 t0) ;; Ok (Some (EExtrapPast t0 t1))
  end.

(** std::lower_bound with operator> on stamps (cache.cpp 171-175): the first element whose
    stamp is not greater than the target, together with its predecessor.  [None] when the
    iterator would be end() or begin(), i.e. when cache.cpp 178-179 would dereference
    outside the sequence.  On a range that is partitioned by "stamp > target" this is what
    the C++ standard specifies; the sortedness theorem shows the range always is. *)
Fixpoint lower_bound_pair (prev : option storage) (l : list storage) (t : time)
  : option (storage * storage) :=
  match l with
  | [] => None
  | x :: l' =>
      if st_stamp x <=? t then
        match prev with Some p => Some (x, p) | None => None end
      else lower_bound_pair (Some x) l' t
  end.

(** cache.cpp 111-184 findClosest *)
Definition findClosest (l : list storage) (t : time) (err : errp) : res (closest * errp) :=
  match l with
  | [] => Ok (Found0, err)                                       (* 114-117 *)
  | front :: rest =>
      if t =? 0 then Ok (Found1 front, err)                      (* 120-124 *)
      else match rest with
      | [] =>                                                     (* 127-140 *)
          if st_stamp front =? t then Ok (Found1 front, err)
          else err' <- extrap1 t (st_stamp front) err ;; Ok (Found0, err')
      | _ :: _ =>
          let back := last rest front in
          let latest := st_stamp front in
          let earliest := st_stamp back in
          if t =? latest then Ok (Found1 front, err)             (* 145-149 *)
          else if t =? earliest then Ok (Found1 back, err)       (* 150-154 *)
          else if latest <? t then                                (* 156-160 *)
            err' <- extrap2 t latest err ;; Ok (Found0, err')
          else if t <? earliest then                              (* 161-165 *)
            err' <- extrap3 t earliest err ;; Ok (Found0, err')
          else match lower_bound_pair None l t with               (* 167-181 *)
               | Some (one, two) => Ok (Found2 one two, err)
               | None => UB
               end
      end
  end.

(** cache.cpp 186-206 interpolate *)
Definition interpolate (one two : storage) (t : time) : res storage :=
  if st_stamp two =? st_stamp one then Ok two
  else
    num <- lift_time (time_sub t (st_stamp one)) ;;
    den <- lift_time (time_sub (st_stamp two) (st_stamp one)) ;;
    let ratio := sdiv (sofns num) (sofns den) in
    Ok {| st_trans := vinterp (st_trans one) (st_trans two) ratio;
          st_rot := qslerp (st_rot one) (st_rot two) ratio;
          st_stamp := t;
          st_frame := st_frame one;
          st_child := st_child one |}.

(** cache.cpp 208-239 TimeCache::getData; [Ok (None, _)] = returns false.
    static_cache.cpp 41-46 StaticCache::getData *)
Definition getData (c : cache) (t : time) (err : errp) : res (option storage * errp) :=
  match c with
  | Dynamic _ l =>
      ' (n, err') <- findClosest l t err ;;
      match n with
      | Found0 => Ok (None, err')
      | Found1 one => Ok (Some one, err')
      | Found2 one two =>
          if feqb (st_frame one) (st_frame two) then
            d <- interpolate one two t ;; Ok (Some d, err')
          else Ok (Some one, err')
      end
  | Static (Some s) =>
      Ok (Some {| st_rot := st_rot s; st_trans := st_trans s; st_stamp := t;
                  st_frame := st_frame s; st_child := st_child s |}, err)
  | Static None => UB
  end.

(** cache.cpp 241-253 TimeCache::getParent, static_cache.cpp 61-64 StaticCache::getParent.
    [None] where the C++ returns CompactFrameID 0 for "no data". *)
Definition getParent (c : cache) (t : time) (err : errp) : res (option F * errp) :=
  match c with
  | Dynamic _ l =>
      ' (n, err') <- findClosest l t err ;;
      match n with
      | Found0 => Ok (None, err')
      | Found1 one => Ok (Some (st_frame one), err')
      | Found2 one two => Ok (Some (st_frame one), err')
      end
  | Static (Some s) => Ok (Some (st_frame s), err)
  | Static None => UB
  end.

(** cache.cpp 272-289: skip newer samples, refuse an equal stamp, insert otherwise.
    [None] = an equal stamp is present. *)
Fixpoint insert_sorted (l : list storage) (x : storage) : option (list storage) :=
  match l with
  | [] => Some [x]
  | y :: l' =>
      if st_stamp y <=? st_stamp x then
        if st_stamp y =? st_stamp x then None else Some (x :: y :: l')
      else option_map (cons y) (insert_sorted l' x)
  end.

(** cache.cpp 328-336 pruneList, on the reversed list (oldest first).  The boolean is true
    when the addition threw. *)
Fixpoint prune_rev (r : list storage) (latest : time) (max : duration) : list storage * bool :=
  match r with
  | [] => ([], false)
  | b :: r' =>
      match time_add (st_stamp b) max with
      | None => (r, true)
      | Some e => if e <? latest then prune_rev r' latest max else (r, false)
      end
  end.
Definition pruneList (l : list storage) (max : duration) : list storage * bool :=
  match l with
  | [] => (l, false)   (* unreachable: only called right after an insertion *)
  | f :: _ => let '(r, thrown) := prune_rev (rev l) (st_stamp f) max in (rev r, thrown)
  end.

(** Return value of insertData: true, or false with the error text. *)
Inductive ins_result := Inserted | Rejected (e : etext).

(** cache.cpp 255-293 TimeCache::insertData, static_cache.cpp 48-52 StaticCache::insertData *)
Definition insertData (c : cache) (x : storage) : cache * res ins_result :=
  match c with
  | Dynamic max l =>
      let insert_it :=
        match insert_sorted l x with
        | None => (c, Ok (Rejected ERepeatedData))
        | Some l' =>
            let '(l'', thrown) := pruneList l' max in
            (Dynamic max l'', if thrown then Throw RuntimeError ETimeRange else Ok Inserted)
        end in
      match l with
      | [] => insert_it
      | f :: _ =>
          match time_add (st_stamp x) max with
          | None => (c, Throw RuntimeError ETimeRange)
          | Some e => if e <? st_stamp f then (c, Ok (Rejected EOldData)) else insert_it
          end
      end
  | Static _ => (Static (Some x), Ok Inserted)
  end.

(** cache.cpp 295-298, static_cache.cpp 57 *)
Definition clearList (c : cache) : cache :=
  match c with Dynamic max _ => Dynamic max [] | Static o => Static o end.

(** cache.cpp 300-303, static_cache.cpp 59 *)
Definition getListLength (c : cache) : nat :=
  match c with Dynamic _ l => length l | Static _ => 1 end.

(** cache.cpp 305-314, static_cache.cpp 66-69; [None] = parent 0 *)
Definition getLatestTimeAndParent (c : cache) : res (time * option F) :=
  match c with
  | Dynamic _ [] => Ok (0, None)
  | Dynamic _ (ts :: _) => Ok (st_stamp ts, Some (st_frame ts))
  | Static (Some s) => Ok (0, Some (st_frame s))
  | Static None => UB
  end.

(** cache.cpp 316-320, static_cache.cpp 71-74 *)
Definition getLatestTimestamp (c : cache) : time :=
  match c with
  | Dynamic _ [] => 0
  | Dynamic _ (ts :: _) => st_stamp ts
  | Static _ => 0
  end.

(** cache.cpp 322-326, static_cache.cpp 76-79 *)
Definition getOldestTimestamp (c : cache) : time :=
  match c with
  | Dynamic _ [] => 0
  | Dynamic _ (ts :: l) => st_stamp (last l ts)
  | Static _ => 0
  end.
End Cache.

Arguments storage : clear implicits.
Arguments cache : clear implicits.
Arguments closest : clear implicits.
