(** * What a buffer reports about itself: allFramesAsYAML and _allFramesAsDot

    Model of buffer_core.cpp 1168-1228 and 1494-1582.  Simplification: the printed text is
    represented by its content - one record per printed frame with the printed numbers before
    formatting to three decimals.  (allFramesAsString, _getParent, _frameExists and
    _getFrameStrings are in BufferCore.v.) *)
From Coq Require Import ZArith Bool List String.
From Verif Require Import RosTime Scalar LinearMath Cache BufferCore.
Import ListNotations.
Open Scope Z_scope.

Section Model.
Context {S : Scalar}.
Notation core := (core S).
Notation cache := (cache S nat).

(** buffer_core.cpp 1207-1218: the fields printed for one frame; 1524-1540 prints the same except
    [y_oldest]. *)
Record row := mkRow {
  y_name : string;
  y_parent : string;
  y_broadcaster : string;
  y_rate : S;
  y_latest : S;                (* most_recent_transform *)
  y_oldest : S;                (* oldest_transform *)
  y_delay : option S;          (* transform_delay, only when current_time > 0 *)
  y_length : S                 (* buffer_length *)
}.

Fixpoint nassoc (k : nat) (l : list (nat * string)) : option string :=
  match l with
  | [] => None
  | (k', v) :: l' => if Nat.eqb k k' then Some v else nassoc k l'
  end.

(** buffer_core.cpp 1195-1199 and 1517-1520 *)
Definition no_authority : string := "no recorded authority".
Definition authority_of (s : core) (cfid : nat) : string :=
  match nassoc cfid (c_auth s) with Some a => a | None => no_authority end.

(** std::max(a, b) *)
Definition smax (a b : S) : S := if sltb a b then b else a.

(** buffer_core.cpp 1201-1202 and 1522-1523; ros::Time::toSec has the same form as
    ros::Duration::toSec *)
Definition rate_of (c : cache) : S :=
  (slit (Z.of_nat (getListLength c)) 1 /
   smax (sofns (getLatestTimestamp c) - sofns (getOldestTimestamp c)) (slit 1 10000))%S.

(** buffer_core.cpp 1183-1218, one turn of the loop for an allocated frame; [Ok None] = continue *)
Definition frame_row (s : core) (current_time : S) (counter : nat) (c : cache) : res (option row) :=
  ' (o, _) <- getData Nat.eqb c 0 None ;;
  match o with
  | None => Ok None
  | Some d =>
      match nth_error (c_rev s) counter, nth_error (c_rev s) (st_frame d) with
      | Some n, Some p =>
          len <- lift_time (time_sub (getLatestTimestamp c) (getOldestTimestamp c)) ;;
          Ok (Some {| y_name := n; y_parent := p; y_broadcaster := authority_of s counter;
             y_rate := rate_of c;
             y_latest := sofns (getLatestTimestamp c); y_oldest := sofns (getOldestTimestamp c);
             y_delay := if sgtb current_time szero
                        then Some (current_time - sofns (getLatestTimestamp c))%S else None;
             y_length := sofns len |})
      | _, _ => UB    (* vector out of range *)
      end
  end.

(** buffer_core.cpp 1181-1219: the loop *)
Fixpoint rows_from (s : core) (now : S) (fs : list (option cache)) (counter : nat) : res (list row) :=
  match fs with
  | [] => Ok []
  | None :: fs' => rows_from s now fs' (Datatypes.S counter)
  | Some c :: fs' =>
      o <- frame_row s now counter c ;;
      rest <- rows_from s now fs' (Datatypes.S counter) ;;
      Ok (match o with Some r => r :: rest | None => rest end)
  end.

(** buffer_core.cpp 1168-1223 allFramesAsYAML; [None] = the text "{}" of line 1176 *)
Definition allFramesAsYAML (s : core) (current_time : S) : res (option (list row)) :=
  rows <- rows_from s current_time (tl (c_frames s)) 1 ;;
  Ok (if Nat.eqb (List.length (c_frames s)) 1 then None else Some rows).

(** buffer_core.cpp 1545-1574: the frames drawn as roots, under the legend.  A frame without a
    cache (only ever named as a parent) is drawn only when current_time > 0. *)
Fixpoint dot_roots_from (s : core) (now : S) (fs : list (option cache)) (counter : nat)
  : res (list string) :=
  match fs with
  | [] => Ok []
  | f :: fs' =>
      rest <- dot_roots_from s now fs' (Datatypes.S counter) ;;
      match f with
      | None =>
          if sgtb now szero then
            match nth_error (c_rev s) counter with Some n => Ok (n :: rest) | None => UB end
          else Ok rest
      | Some c =>
          ' (o, _) <- getData Nat.eqb c 0 None ;;
          let pid := match o with Some d => st_frame d | None => 0%nat end in
          match nth_error (c_rev s) pid, nth_error (c_rev s) counter with
          | Some p, Some n => Ok (if String.eqb p NO_PARENT then n :: rest else rest)
          | _, _ => UB
          end
      end
  end.

(** buffer_core.cpp 1494-1576 _allFramesAsDot: the labelled edges parent -> child, then the roots *)
Definition allFramesAsDot (s : core) (current_time : S) : res (list row * list string) :=
  edges <- rows_from s current_time (tl (c_frames s)) 1 ;;
  roots <- dot_roots_from s current_time (tl (c_frames s)) 1 ;;
  Ok (edges, roots).
End Model.
Arguments row : clear implicits.
