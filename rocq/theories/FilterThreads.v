(** * tf2_ros::MessageFilter with threads

    Model of tf2_ros/include/tf2_ros/message_filter.h 241-548 and 617-641 in which calls of add(),
    of the buffer's setTransform with the callbacks it makes, of clear() and of the setters, from
    any number of threads, interleave at their lock boundaries and between their accesses to
    unprotected members.  Threads inside a call are kept in a list; a schedule is a list of
    actions, an action of a thread that is blocked or does not exist does nothing.
    Simplifications: as in MessageFilter.v (messages are headers, counters and debug output
    dropped); addTransformableRequest is its two pieces as in Interleaving.v; the region of add()
    under messages_mutex_ (374-399, which only calls cancelTransformableRequest of the buffer) is
    one step; the user's callbacks only record the verdict; reads and writes of single
    unprotected members are atomic (C64 lists which of these are data races); a callback that clear()
    erased after testTransformableRequests had picked it up still runs (in the code that is a use of
    an erased object). *)
From Coq Require Import ZArith Bool List String.
From Verif Require Import RosTime Scalar LinearMath Cache BufferCore Requests MessageFilter.
Import ListNotations.
Open Scope Z_scope.

(** Why a message left without a verdict. *)
Inductive lost_reason :=
| NoTargets          (* 299-302: no target frames: ignored *)
| Threw              (* an exception left add() *)
| Cleared.           (* clear() *)

(** A request checked by addTransformableRequest and not stored yet (buffer_core.cpp 1308-1352). *)
Record checked_req := mkCk { ck_cb : Z; ck_target : nat; ck_source : nat; ck_time : time }.

(** Where a thread stands. *)
Inductive thread :=
| AddCopy (i : minfo)                                         (* add(): before 322 *)
| AddAsk (i : minfo) (tgt : string) (second : bool) (rest : list string)
    (* add(): about to call addTransformableRequest for [tgt] (331; [second]: 348, at stamp +
       tolerance); [rest]: target frames still to come *)
| AddStore (i : minfo) (tgt : string) (second : bool) (rest : list string) (k : checked_req)
    (* inside addTransformableRequest, checked and not stored yet *)
| AddDecide (i : minfo)                                       (* add(): before 368 *)
| AddQueue (i : minfo)                                        (* add(): waiting for messages_mutex_, 374 *)
| SetTest                                                     (* setTransform: between 282 and 284 *)
| SetFire (evs : list event)                                  (* testTransformableRequests 1484: callbacks still to call *)
| SetWait (i : minfo) (evs : list event)
    (* transformable() for message [i]: before 499, holding messages_mutex_ *)
| SetCheck (i : minfo) (checks : list (string * bool)) (evs : list event)
    (* inside transformable() for message [i], holding messages_mutex_ and target_frames_mutex_;
       frames still to check (501-520) *)
| SetVerdict (i : minfo) (can : bool) (evs : list event)      (* transformable(): before 528, holding messages_mutex_ *)
| CfgExpected          (* setTargetFrames, setTolerance: before 247, 272, holding target_frames_mutex_ *)
| Gone.

Section FT.
Context {S : Scalar}.
Record fstate := mkFS {
  z_buf : buf S;
  z_cb : Z;                       (* callback_handle_ *)
  z_own : list Z;                 (* every handle this filter has been registered under *)
  z_targets : list string; z_tol : duration; z_expected : nat; z_qsize : nat;
  z_msgs : list minfo;            (* messages_ *)
  z_mlock : bool;                 (* messages_mutex_ is held by a thread in SetWait, SetCheck or SetVerdict *)
  z_flock : bool;                 (* target_frames_mutex_ is held by a thread in SetCheck or CfgExpected *)
  z_threads : list thread;
  z_added : list (string * time); (* ghost: calls of add() so far *)
  z_emitted : list output;        (* messageReady / messageDropped calls so far *)
  z_lost : list (nat * lost_reason)    (* ghost *)
}.

Definition upd_buf (z : fstate) b := mkFS b (z_cb z) (z_own z) (z_targets z) (z_tol z) (z_expected z) (z_qsize z) (z_msgs z) (z_mlock z) (z_flock z) (z_threads z) (z_added z) (z_emitted z) (z_lost z).
Definition upd_msgs (z : fstate) l := mkFS (z_buf z) (z_cb z) (z_own z) (z_targets z) (z_tol z) (z_expected z) (z_qsize z) l (z_mlock z) (z_flock z) (z_threads z) (z_added z) (z_emitted z) (z_lost z).
Definition upd_locks (z : fstate) m f := mkFS (z_buf z) (z_cb z) (z_own z) (z_targets z) (z_tol z) (z_expected z) (z_qsize z) (z_msgs z) m f (z_threads z) (z_added z) (z_emitted z) (z_lost z).
Definition upd_threads (z : fstate) ths := mkFS (z_buf z) (z_cb z) (z_own z) (z_targets z) (z_tol z) (z_expected z) (z_qsize z) (z_msgs z) (z_mlock z) (z_flock z) ths (z_added z) (z_emitted z) (z_lost z).
Definition say (z : fstate) (o : output) := mkFS (z_buf z) (z_cb z) (z_own z) (z_targets z) (z_tol z) (z_expected z) (z_qsize z) (z_msgs z) (z_mlock z) (z_flock z) (z_threads z) (z_added z) (z_emitted z ++ [o]) (z_lost z).
Definition lose (z : fstate) (l : list (nat * lost_reason)) := mkFS (z_buf z) (z_cb z) (z_own z) (z_targets z) (z_tol z) (z_expected z) (z_qsize z) (z_msgs z) (z_mlock z) (z_flock z) (z_threads z) (z_added z) (z_emitted z) (z_lost z ++ l).

Fixpoint set_nth {A} (i : nat) (x : A) (l : list A) : list A :=
  match i, l with
  | _, [] => []
  | O, _ :: l' => x :: l'
  | Datatypes.S i', y :: l' => y :: set_nth i' x l'
  end.
Definition goto (z : fstate) (n : nat) (th : thread) : fstate := upd_threads z (set_nth n th (z_threads z)).

(** 332-363: note the answer [h] for the message and go on to the next request *)
Definition next_target (z : fstate) (n : nat) (i : minfo) (rest : list string) : fstate :=
  match rest with
  | [] => goto z n (AddDecide i)
  | tgt :: rest' => goto z n (AddAsk i tgt false rest')
  end.
Definition answered (z : fstate) (n : nat) (i : minfo) (tgt : string) (second : bool) (rest : list string) (h : Z) : fstate :=
  match note_answer h (mi_success i, mi_handles i) with
  | None => say (goto z n Gone) (verdict i (Dropped OutTheBack))        (* 332-336, 349-353 *)
  | Some (k, hs) =>
      let i' := mkInfo (mi_seq i) (mi_frame i) (mi_stamp i) hs k in
      if negb second && negb (z_tol z =? 0) then goto z n (AddAsk i' tgt true rest)   (* 346 *)
      else next_target z n i' rest
  end.

(** 374-399 *)
Definition queue (z : fstate) (i : minfo) : fstate :=
  let z1 :=
    if negb (Nat.eqb (z_qsize z) 0) && Nat.ltb (z_qsize z) (List.length (z_msgs z) + 1) then
      match z_msgs z with
      | front :: rest =>
          say (upd_msgs (upd_buf z (fold_left cancelTransformableRequest (mi_handles front) (z_buf z))) rest)
              (verdict front (Dropped Unknown))
      | [] => z
      end
    else z in
  upd_msgs z1 (z_msgs z1 ++ [i]).

(** One step of thread [n].  [read] is what a callback reads through its result reference. *)
Definition thread_step (z : fstate) (n : nat) (read : transformable_result) : fstate :=
  match nth_error (z_threads z) n with
  | None | Some Gone => z
  | Some (AddCopy i) => if z_flock z then z else next_target z n i (z_targets z)   (* 322-323 *)
  | Some (AddAsk i tgt second rest) =>
      match (if second then lift_time (time_add (mi_stamp i) (z_tol z)) else Ok (mi_stamp i)) with
      | Ok t =>
          match add_check (b_core (z_buf z)) tgt (mf_stripSlash (mi_frame i)) t with
          | Ok (Answer h) => answered z n i tgt second rest h
          | Ok (Push ti si) => goto z n (AddStore i tgt second rest (mkCk (z_cb z) ti si t))
          | _ => lose (goto z n Gone) [(mi_seq i, Threw)]
          end
      | _ => lose (goto z n Gone) [(mi_seq i, Threw)]
      end
  | Some (AddStore i tgt second rest k) =>
      let '(b, h) := push_request (z_buf z) (ck_cb k) (ck_target k) (ck_source k) tgt (mf_stripSlash (mi_frame i)) (ck_time k) in
      answered (upd_buf z b) n i tgt second rest h
  | Some (AddDecide i) =>                                                (* 368-374 *)
      if Nat.eqb (mi_success i) (z_expected z) then say (goto z n Gone) (verdict i Ready)
      else goto z n (AddQueue i)
  | Some (AddQueue i) => if z_mlock z then z else queue (goto z n Gone) i
  | Some SetTest =>
      let '(b, r) := testTransformableRequests (z_buf z) in
      goto (upd_buf z b) n (match r with Ok evs => SetFire evs | _ => Gone end)
  | Some (SetFire []) => goto z n Gone
  | Some (SetFire (e :: evs)) =>
      if negb (existsb (Z.eqb (ev_cb e)) (z_own z)) then goto z n (SetFire evs)     (* another client's callback *)
      else if z_mlock z then z                                            (* 464 blocks *)
      else
        match find_info (ev_handle e) (z_msgs z) with
        | None => goto z n (SetFire evs)                                  (* 481-484 *)
        | Some (l1, i0, l2) =>
            let i := bump i0 in
            let z1 := upd_msgs z (l1 ++ i :: l2) in
            if Nat.ltb (mi_success i) (z_expected z) then goto z1 n (SetFire evs)   (* 487-490 *)
            else
              match read with
              | TransformAvailable => upd_locks (goto z1 n (SetWait i evs)) true (z_flock z)
              | TransformFailure => upd_locks (goto z1 n (SetVerdict i false evs)) true (z_flock z)
              end
        end
  | Some (SetWait i evs) =>                                               (* 499 *)
      if z_flock z then z
      else upd_locks (goto z n (SetCheck i (map (fun t => (t, false)) (z_targets z)) evs)) true true
  | Some (SetCheck i [] evs) => upd_locks (goto z n (SetVerdict i true evs)) true false
  | Some (SetCheck i ((tgt, second) :: cs) evs) =>
      match (if second then lift_time (time_add (mi_stamp i) (z_tol z)) else Ok (mi_stamp i)) with
      | Ok t =>
          match canTransform (b_core (z_buf z)) tgt (mf_stripSlash (mi_frame i)) t None with
          | Ok (true, _) =>
              if negb second && negb (z_tol z =? 0) then goto z n (SetCheck i ((tgt, true) :: cs) evs)
              else goto z n (SetCheck i cs evs)
          | Ok (false, _) => upd_locks (goto z n (SetVerdict i false evs)) true false
          | _ => upd_locks (goto z n Gone) false false                    (* the exception leaves setTransform *)
          end
      | _ => upd_locks (goto z n Gone) false false
      end
  | Some (SetVerdict i can evs) =>                                        (* 528-547 *)
      let z1 := say (upd_msgs z (filter (fun j => negb (Nat.eqb (mi_seq j) (mi_seq i))) (z_msgs z)))
                    (verdict i (if can then Ready else Dropped Unknown)) in
      upd_locks (goto z1 n (SetFire evs)) false (z_flock z)
  | Some CfgExpected =>                                                   (* 247, 272 *)
      mkFS (z_buf z) (z_cb z) (z_own z) (z_targets z) (z_tol z) (expected_count (z_targets z) (z_tol z)) (z_qsize z) (z_msgs z)
        (z_mlock z) false (set_nth n Gone (z_threads z)) (z_added z) (z_emitted z) (z_lost z)
  end.

Inductive faction :=
| FAdd (frame : string) (stamp : time)                       (* a thread calls add(), 297-317 *)
| FGo (n : nat) (read : transformable_result)                (* thread [n] makes its next step *)
| FInsert (m : tmsg S) (authority : string) (is_static : bool)   (* a thread calls setTransform: 202-282 *)
| FSetTargets (l : list string) | FSetTolerance (d : duration) | FSetQueueSize (n : nat) | FClear
| FOtherClear                                                (* BufferCore::clear *)
| FOtherAddCallback | FOtherRemoveCallback (cb : Z)          (* other clients of the same buffer *)
| FOtherRequest (cb : Z) (target source : string) (t : time) | FOtherCancel (h : Z).

Definition spawn (z : fstate) (th : thread) : fstate := upd_threads z (z_threads z ++ [th]).

Definition fact (z : fstate) (a : faction) : fstate :=
  match a with
  | FAdd frame stamp =>
      let i := mkInfo (List.length (z_added z)) frame stamp [] 0 in
      let z1 := mkFS (z_buf z) (z_cb z) (z_own z) (z_targets z) (z_tol z) (z_expected z) (z_qsize z) (z_msgs z) (z_mlock z) (z_flock z) (z_threads z) (z_added z ++ [(frame, stamp)]) (z_emitted z) (z_lost z) in
      match z_targets z with
      | [] => lose z1 [(mi_seq i, NoTargets)]                            (* 299-302 *)
      | _ =>
          if String.eqb (mf_stripSlash frame) EmptyString then say z1 (verdict i (Dropped EmptyFrameID))   (* 309-313 *)
          else spawn z1 (AddCopy i)
      end
  | FGo n read => thread_step z n read
  | FInsert m au st =>
      let '(s', r) := setTransform (b_core (z_buf z)) m au st in
      let z1 := upd_buf z (with_core (z_buf z) s') in
      match r with Ok true => spawn z1 SetTest | _ => z1 end
  | FSetTargets l =>                                                      (* 241-246 *)
      if z_flock z then z
      else mkFS (z_buf z) (z_cb z) (z_own z) (map mf_stripSlash l) (z_tol z) (z_expected z) (z_qsize z) (z_msgs z) (z_mlock z) true
             (z_threads z ++ [CfgExpected]) (z_added z) (z_emitted z) (z_lost z)
  | FSetTolerance d =>                                                    (* 268-271 *)
      if z_flock z then z
      else mkFS (z_buf z) (z_cb z) (z_own z) (z_targets z) d (z_expected z) (z_qsize z) (z_msgs z) (z_mlock z) true
             (z_threads z ++ [CfgExpected]) (z_added z) (z_emitted z) (z_lost z)
  | FSetQueueSize q =>                                                    (* 431-434 *)
      mkFS (z_buf z) (z_cb z) (z_own z) (z_targets z) (z_tol z) (z_expected z) q (z_msgs z) (z_mlock z) (z_flock z) (z_threads z) (z_added z) (z_emitted z) (z_lost z)
  | FClear =>                                                             (* 278-295 *)
      if z_mlock z then z
      else
        let '(b, h) := addTransformableCallback (removeTransformableCallback (z_buf z) (z_cb z)) in
        let cb := match h with Some h => h | None => z_cb z end in
        lose (mkFS b cb (cb :: z_own z) (z_targets z) (z_tol z) (z_expected z) (z_qsize z) [] (z_mlock z) (z_flock z) (z_threads z) (z_added z) (z_emitted z) (z_lost z))
             (map (fun i => (mi_seq i, Cleared)) (z_msgs z))
  | FOtherClear => upd_buf z (with_core (z_buf z) (clear (b_core (z_buf z))))
  | FOtherAddCallback => upd_buf z (fst (addTransformableCallback (z_buf z)))
  | FOtherRemoveCallback cb => upd_buf z (removeTransformableCallback (z_buf z) cb)
  | FOtherRequest cb tgt src t => upd_buf z (fst (addTransformableRequest (z_buf z) cb tgt src t))
  | FOtherCancel h => upd_buf z (cancelTransformableRequest (z_buf z) h)
  end.

(** 96-107, 444-457: a new filter, alone *)
Definition new_threaded (b : buf S) (target : string) (queue_size : nat) : option fstate :=
  match addTransformableCallback b with
  | (b', Some h) => Some (mkFS b' h [h] [mf_stripSlash target] 0 1 queue_size [] false false [] [] [] [])
  | (_, None) => None
  end.

(** The states a schedule goes through, in order, the first one included. *)
Fixpoint trace (z : fstate) (l : list faction) : list fstate :=
  z :: match l with [] => [] | a :: l' => trace (fact z a) l' end.
Fixpoint frun (z : fstate) (l : list faction) : fstate :=
  match l with [] => z | a :: l' => frun (fact z a) l' end.
End FT.
Arguments fstate : clear implicits.
Arguments faction : clear implicits.
