(** * BufferCore used by several threads

    Model of tf2/src/buffer_core.cpp with the places where frame_mutex_ is locked and unlocked:
    every public call that reads or changes the stored transforms is a program whose steps other
    threads' steps can come between.  A scoped_lock is [Acquire], the end of its scope [Leave];
    within a scope each [Access] is one visit to the shared data, and the value found may decide
    how the call goes on.
    Simplifications: a visit is atomic (a loop over frames visits them one by one; one walk up the
    tree is one visit); no transformable requests are pending and nobody listens to
    _transforms_changed_, so setTransform ends where its lock scope ends (C30-C34 and C80 treat
    the requests); an unlocked read of the table of names is one atomic read, although in C++ it
    is a data race with a concurrent insertion (C64). *)
From Coq Require Import ZArith Bool List String Arith.
From Verif Require Import RosTime Scalar LinearMath Cache BufferCore Introspection.
Import ListNotations.
Open Scope Z_scope.

Section Threads.
Context {S : Scalar}.
Notation core := (core S).

(** ** Calls and answers *)
(** buffer_core.h 103-318: the calls that touch the stored transforms *)
Inductive call :=
| SetTransform (m : tmsg S) (authority : string) (is_static : bool)
| Clear
| LookupTransform (target source : string) (t : time)
| LookupTransformFixed (target : string) (target_time : time) (source : string) (source_time : time) (fixed : string)
| CanTransform (target source : string) (t : time) (err : errp)
| CanTransformFixed (target : string) (target_time : time) (source : string) (source_time : time) (fixed : string) (err : errp)
| AllFramesAsString
| AllFramesAsYAML (now : S)
| AllFramesAsDot (now : S)
| FrameExists (name : string)
| GetParent (name : string) (t : time)
| GetFrameStrings
| LatestCommonTime (target source : nat) (err : errp)
| ChainAsVector (target : string) (target_time : time) (source : string) (source_time : time) (fixed : string).

Inductive answer :=
| IsSet (r : res bool)
| IsCleared
| Transform (r : res (tmsg S))
| Can (r : res (bool * errp))
| Text (r : res string)
| Yaml (r : res (option (list (row S))))
| Dot (r : res (list (row S) * list string))
| Exists (b : bool)
| Parent (r : res (option string))
| Names (l : list string)
| Latest (r : res (tf2_error * option time * errp))
| Chain (r : res (list string)).

(** ** Programs *)
(** Outside and inside a lock scope.  [Access g k]: the shared data, found to be [s], becomes
    [g s], and the call goes on with [k s]. *)
Inductive prog :=
| Return (a : answer)
| Peek (k : core -> prog)                (* a read without the lock *)
| Acquire (b : scope)
with scope :=
| Leave (p : prog)
| Access (g : core -> core) (k : core -> scope).

Definition read (k : core -> scope) : scope := Access (fun s => s) k.
Definition write (g : core -> core) (b : scope) : scope := Access g (fun _ => b).

(** buffer_core.cpp 912-927: the table of names after lookupOrInsertFrameNumber, and the number *)
Definition insert_name (name : string) (s : core) : core := fst (lookupOrInsertFrameNumber s name).
Definition name_number (s : core) (name : string) : nat := snd (lookupOrInsertFrameNumber s name).
(** 269-270: a cache is allocated if the frame has none *)
Definition allocate (n : nat) (is_static : bool) (s : core) : core :=
  match getFrame s n with Some _ => s | None => setFrame s n (new_cache s is_static) end.
(** 273: insertData *)
Definition insert_into (n : nat) (d : storage S nat) (s : core) : core :=
  match getFrame s n with Some c => setFrame s n (fst (insertData c d)) | None => s end.
Definition insert_result (n : nat) (d : storage S nat) (s : core) : res ins_result :=
  match getFrame s n with Some c => snd (insertData c d) | None => UB end.

(** 202-287 setTransform *)
Definition setTransform_code (m0 : tmsg S) (authority : string) (is_static : bool) : prog :=
  let m := strip_msg m0 in
  if setTransform_error m then Return (IsSet (Ok false))
  else
    Acquire
      (Access (insert_name (tm_child m)) (fun s0 =>
       let child := name_number s0 (tm_child m) in
       write (allocate child is_static)
      (Access (insert_name (tm_frame m)) (fun s1 =>
       let d := mk_storage m (name_number s1 (tm_frame m)) child in
       Access (insert_into child d) (fun s2 =>
       match insert_result child d s2 with
       | Ok Inserted => write (fun s => setAuthority s child authority) (Leave (Return (IsSet (Ok true))))
       | Ok (Rejected _) => Leave (Return (IsSet (Ok false)))
       | Throw cl e => Leave (Return (IsSet (Throw cl e)))
       | UB => Leave (Return (IsSet UB))
       end))))).

(** 185-200 clear: the frames one after the other, number 0 excepted *)
Definition clear_frame (i : nat) (s : core) : core :=
  match getFrame s i with Some c => setFrame s i (clearList c) | None => s end.
Fixpoint clear_code_from (i n : nat) : scope :=
  match n with
  | O => Leave (Return IsCleared)
  | Datatypes.S n' => write (clear_frame i) (clear_code_from (Datatypes.S i) n')
  end.
Definition clear_code : prog := Acquire (read (fun s => clear_code_from 1 (List.length (c_frames s) - 1))).

(** 595-648 lookupTransform; [k] is what the caller does with the result *)
Definition lookup_code (target source : string) (t : time) (k : res (tmsg S) -> prog) : prog :=
  Acquire
    (if String.eqb target source then
       let identity stamp := Ok {| tm_stamp := stamp; tm_frame := target; tm_child := source; tm_trans := vzero; tm_rot := qidentity |} in
       if t =? 0 then
         read (fun s => let id := lookupFrameNumber s target in
         read (fun s => Leave (k (identity (match getFrame s id with Some c => getLatestTimestamp c | None => t end)))))
       else Leave (k (identity t))
     else
       read (fun s =>
       match validateFrameId s "lookupTransform argument target_frame" target with
       | Throw c e => Leave (k (Throw c e))
       | UB => Leave (k UB)
       | Ok target_id =>
           read (fun s =>
           match validateFrameId s "lookupTransform argument source_frame" source with
           | Throw c e => Leave (k (Throw c e))
           | UB => Leave (k UB)
           | Ok source_id =>
               read (fun s => Leave (k (
                 ' (code, a, err, _) <- walkToTopParent ta_gather ta_accum ta_finalize s t target_id source_id taccum0 (Some EEmpty) ;;
                 match code with
                 | NO_ERROR => Ok {| tm_stamp := ta_time a; tm_frame := target; tm_child := source; tm_trans := ta_rv a; tm_rot := ta_rq a |}
                 | _ => throw_code code err
                 end)))
           end)
       end)).

(** 651-674 lookupTransform through a fixed frame: three checks of names without the lock, then
    two lookups, each locking for itself *)
Definition combine (target source : string) (temp1 temp2 : tmsg S) : tmsg S :=
  let x := xmul (msg_to_tf2 temp2) (msg_to_tf2 temp1) in
  {| tm_stamp := tm_stamp temp2; tm_frame := target; tm_child := source; tm_trans := xorigin x; tm_rot := xgetRotation x |}.
Definition check_name (arg name : string) (p : prog) : prog :=
  Peek (fun s => match validateFrameId s arg name with
                 | Ok _ => p
                 | Throw c e => Return (Transform (Throw c e))
                 | UB => Return (Transform UB)
                 end).
Definition second_lookup (target : string) (target_time : time) (source fixed : string) (temp1 : tmsg S) : prog :=
  lookup_code target fixed target_time (fun r2 =>
  match r2 with
  | Ok temp2 => Return (Transform (Ok (combine target source temp1 temp2)))
  | Throw c e => Return (Transform (Throw c e))
  | UB => Return (Transform UB)
  end).
Definition first_lookup (target : string) (target_time : time) (source : string) (source_time : time) (fixed : string) : prog :=
  lookup_code fixed source source_time (fun r1 =>
  match r1 with
  | Ok temp1 => second_lookup target target_time source fixed temp1
  | Throw c e => Return (Transform (Throw c e))
  | UB => Return (Transform UB)
  end).
Definition lookupFixed_code (target : string) (target_time : time) (source : string) (source_time : time) (fixed : string) : prog :=
  check_name "lookupTransform argument target_frame" target
 (check_name "lookupTransform argument source_frame" source
 (check_name "lookupTransform argument fixed_frame" fixed
 (first_lookup target target_time source source_time fixed))).

(** 803-840 canTransform *)
Definition can_code (target_frame source_frame : string) (t : time) (err : errp) : prog :=
  if String.eqb target_frame source_frame then Return (Can (Ok (true, err)))
  else if warnFrameId target_frame then Return (Can (Ok (false, err)))
  else if warnFrameId source_frame then Return (Can (Ok (false, err)))
  else Acquire
    (read (fun s => let target := lookupFrameNumber s target_frame in
     read (fun s => let source := lookupFrameNumber s source_frame in
     if Nat.eqb target 0 || Nat.eqb source 0 then
       Leave (Return (Can (Ok (false, missing_err target source target_frame source_frame err))))
     else read (fun s => Leave (Return (Can (canTransformNoLock s target source t err))))))).

(** 842-886 canTransform through a fixed frame: one lock scope *)
Definition canFixed_code (target_frame : string) (target_time : time) (source_frame : string) (source_time : time)
    (fixed_frame : string) (err : errp) : prog :=
  if warnFrameId target_frame then Return (Can (Ok (false, err)))
  else if warnFrameId source_frame then Return (Can (Ok (false, err)))
  else if warnFrameId fixed_frame then Return (Can (Ok (false, err)))
  else Acquire
    (read (fun s => let target := lookupFrameNumber s target_frame in
     read (fun s => let source := lookupFrameNumber s source_frame in
     read (fun s => let fixed := lookupFrameNumber s fixed_frame in
     if Nat.eqb target 0 || Nat.eqb source 0 || Nat.eqb fixed 0 then
       let err1 := missing_err target source target_frame source_frame err in
       Leave (Return (Can (Ok (false, if Nat.eqb fixed 0 then append_err err1 (ENoSuchFrame "fixed_frame" fixed_frame) else err1))))
     else
       read (fun s =>
       match canTransformNoLock s target fixed target_time err with
       | Ok (true, err') => read (fun s => Leave (Return (Can (canTransformNoLock s fixed source source_time err'))))
       | Ok (false, err') => Leave (Return (Can (Ok (false, err'))))
       | Throw c e => Leave (Return (Can (Throw c e)))
       | UB => Leave (Return (Can UB))
       end))))).

(** A call that is one read under the lock *)
Definition ask_code (f : core -> answer) : prog := Acquire (read (fun s => Leave (Return (f s)))).

(** 1374-1390 _getParent *)
Definition parent_code (name : string) (t : time) : prog :=
  Acquire
    (read (fun s => let id := lookupFrameNumber s name in
     read (fun s =>
     match getFrame s id with
     | None => Leave (Return (Parent (Ok None)))
     | Some c =>
         match getParent c t None with
         | Ok (o, _) =>
             if Nat.eqb (parent_id o) 0 then Leave (Return (Parent (Ok None)))
             else read (fun s => Leave (Return (Parent (n <- lookupFrameString s (parent_id o) ;; Ok (Some n)))))
         | Throw c e => Leave (Return (Parent (Throw c e)))
         | UB => Leave (Return (Parent UB))
         end
     end))).

(** The lock scopes of the other calls: 952-956 allFramesAsString, 1168-1223 allFramesAsYAML,
    1494-1576 _allFramesAsDot, 1368-1372 _frameExists, 1392-1406 _getFrameStrings, 1583-1654
    _chainAsVector; buffer_core.h 285-288 _getLatestCommonTime *)
Definition code (c : call) : prog :=
  match c with
  | SetTransform m a st => setTransform_code m a st
  | Clear => clear_code
  | LookupTransform tg sr t => lookup_code tg sr t (fun r => Return (Transform r))
  | LookupTransformFixed tg u sr st fx => lookupFixed_code tg u sr st fx
  | CanTransform tg sr t e => can_code tg sr t e
  | CanTransformFixed tg u sr st fx e => canFixed_code tg u sr st fx e
  | AllFramesAsString => ask_code (fun s => Text (allFramesAsString s))
  | AllFramesAsYAML now => ask_code (fun s => Yaml (allFramesAsYAML s now))
  | AllFramesAsDot now => ask_code (fun s => Dot (allFramesAsDot s now))
  | FrameExists n => ask_code (fun s => Exists (frameExists s n))
  | GetParent n t => parent_code n t
  | GetFrameStrings => ask_code (fun s => Names (getFrameStrings s))
  | LatestCommonTime tg sr e => ask_code (fun s => Latest (getLatestCommonTime s tg sr e))
  | ChainAsVector tg u sr st fx => ask_code (fun s => Chain (chainAsVector s tg u sr st fx))
  end.

(** ** Any number of threads *)
Inductive activity := Outside (p : prog) | Inside (b : scope).
(** The buffer, who holds frame_mutex_, and what each thread is doing ([None]: no call). *)
Record machine := mkMachine {
  k_core : core;
  k_holder : option nat;
  k_thread : nat -> option activity
}.
Definition start (ct : duration) : machine := mkMachine (init_core ct) None (fun _ => None).
Definition put (f : nat -> option activity) (i : nat) (a : option activity) : nat -> option activity :=
  fun j => if Nat.eqb j i then a else f j.

(** The scheduler: thread [i], idle, makes a call; or a step of its call is executed. *)
Inductive move := Invoke (i : nat) (c : call) | Go (i : nat).
(** What can be seen from outside *)
Inductive event := Called (i : nat) (c : call) | Returned (i : nat) (a : answer).

(** One move.  A move that is not possible (a call by a thread that is in one, a step of an idle
    thread, locking a locked mutex) does nothing. *)
Definition advance (e : machine) (v : move) : machine * list event :=
  match v with
  | Invoke i c =>
      match k_thread e i with
      | None => (mkMachine (k_core e) (k_holder e) (put (k_thread e) i (Some (Outside (code c)))), [Called i c])
      | Some _ => (e, [])
      end
  | Go i =>
      match k_thread e i with
      | None => (e, [])
      | Some (Outside (Return a)) => (mkMachine (k_core e) (k_holder e) (put (k_thread e) i None), [Returned i a])
      | Some (Outside (Peek k)) => (mkMachine (k_core e) (k_holder e) (put (k_thread e) i (Some (Outside (k (k_core e))))), [])
      | Some (Outside (Acquire b)) =>
          match k_holder e with
          | None => (mkMachine (k_core e) (Some i) (put (k_thread e) i (Some (Inside b))), [])
          | Some _ => (e, [])
          end
      | Some (Inside (Leave p)) => (mkMachine (k_core e) None (put (k_thread e) i (Some (Outside p))), [])
      | Some (Inside (Access g k)) =>
          (mkMachine (g (k_core e)) (k_holder e) (put (k_thread e) i (Some (Inside (k (k_core e))))), [])
      end
  end.
(** A whole execution: the final state, the history, and the contents of the buffer after each move *)
Fixpoint execute (e : machine) (l : list move) : machine * list event :=
  match l with
  | [] => (e, [])
  | v :: l' => let '(e', h) := advance e v in let '(e'', h') := execute e' l' in (e'', h ++ h')
  end.
End Threads.
Arguments call : clear implicits.
Arguments answer : clear implicits.
Arguments prog : clear implicits.
Arguments scope : clear implicits.
Arguments machine : clear implicits.
Arguments event : clear implicits.
Arguments move : clear implicits.
Arguments activity : clear implicits.
