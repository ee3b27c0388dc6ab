(* Threads that take and release mutexes: the meaning of "deadlock" and of "data race".
   Nothing here mentions geometry2; the lock names are a parameter. *)
From Coq Require Import List.
Import ListNotations.

(* How a mutex can be held: boost::mutex is only ever held [Exclusive]; boost::shared_mutex can
   also be held [Shared], or in [Upgrade] mode (one such holder, shared holders allowed beside it). *)
Inductive mode := Shared | Upgrade | Exclusive.

Section Threads.
  Context {lock field : Type}.

  (* What a thread does, as far as locks and shared variables are concerned. *)
  Inductive act :=
  | Acq (l : lock) (m : mode)      (* lock, lock_shared, lock_upgrade *)
  | Promote (l : lock)             (* boost::upgrade_to_unique_lock: from Upgrade to Exclusive *)
  | Demote (l : lock)              (* its destructor *)
  | Rel (l : lock)                 (* unlock *)
  | Rd (x : field)                 (* read a shared variable *)
  | Wr (x : field).                (* modify it *)

  (* A piece of code is the set of action sequences it can perform, each either running to its end
     or leaving by an exception. *)
  Inductive outcome := Done | Threw.
  Definition code := list act -> outcome -> Prop.

  (* A thread: the locks it holds, most recent first, and what it is still going to do. *)
  Record thread := mkThread { holds : list (lock * mode); todo : list act }.
  Definition pool := nat -> option thread.

  (* Two holders of one mutex are compatible. *)
  Definition compatible (m m' : mode) : Prop :=
    match m, m' with
    | Shared, Shared | Shared, Upgrade | Upgrade, Shared => True
    | _, _ => False
    end.

  (* Lock [l] can be had in mode [m]: no thread at all (the asking one included: these mutexes are
     not recursive) holds it in an incompatible mode. *)
  Definition free_for (s : pool) (l : lock) (m : mode) : Prop :=
    forall j t m', s j = Some t -> In (l, m') (holds t) -> compatible m m'.

  (* Nobody but thread [i] holds [l]. *)
  Definition only (s : pool) (i : nat) (l : lock) : Prop :=
    forall j t m', s j = Some t -> In (l, m') (holds t) -> j = i.

  Definition set (s : pool) (i : nat) (t : thread) : pool :=
    fun j => if Nat.eqb j i then Some t else s j.

  (* One step of thread [i]. *)
  Inductive step (s : pool) (i : nat) : pool -> Prop :=
  | step_acq h l m k : s i = Some (mkThread h (Acq l m :: k)) -> free_for s l m ->
      step s i (set s i (mkThread ((l, m) :: h) k))
  | step_promote h1 h2 l k : s i = Some (mkThread (h1 ++ (l, Upgrade) :: h2) (Promote l :: k)) ->
      only s i l -> step s i (set s i (mkThread (h1 ++ (l, Exclusive) :: h2) k))
  | step_demote h1 h2 l k : s i = Some (mkThread (h1 ++ (l, Exclusive) :: h2) (Demote l :: k)) ->
      step s i (set s i (mkThread (h1 ++ (l, Upgrade) :: h2) k))
  | step_rel h1 h2 l m k : s i = Some (mkThread (h1 ++ (l, m) :: h2) (Rel l :: k)) ->
      step s i (set s i (mkThread (h1 ++ h2) k))
  | step_rd h x k : s i = Some (mkThread h (Rd x :: k)) -> step s i (set s i (mkThread h k))
  | step_wr h x k : s i = Some (mkThread h (Wr x :: k)) -> step s i (set s i (mkThread h k)).

  (* Any schedule. *)
  Inductive reach : pool -> pool -> Prop :=
  | reach_now s : reach s s
  | reach_step s i s1 s2 : step s i s1 -> reach s1 s2 -> reach s s2.

  (* The threads at the beginning: the code each one is going to run, no lock held. *)
  Definition start (progs : list (list act)) : pool :=
    fun i => option_map (mkThread []) (nth_error progs i).

  Definition finished (s : pool) : Prop := forall i t, s i = Some t -> todo t = [].

  (* How many actions the first [n] threads have left. *)
  Fixpoint remaining (n : nat) (s : pool) : nat :=
    match n with
    | 0 => 0
    | S n => match s n with Some t => length (todo t) | None => 0 end + remaining n s
    end.

  (* A thread waits for exclusive ownership of [l]; boost::shared_mutex then lets no new shared or
     upgrade owner in. *)
  Definition writer_waits (s : pool) (l : lock) : Prop :=
    exists j t k, s j = Some t /\ (todo t = Acq l Exclusive :: k \/ todo t = Promote l :: k).

  (* Thread [i] can go on even if waiting writers are served first. *)
  Definition can_go (s : pool) (i : nat) : Prop :=
    (exists s', step s i s') /\
    (forall t l m k, s i = Some t -> todo t = Acq l m :: k -> m <> Exclusive -> ~ writer_waits s l).

  (* Some threads are unfinished and none of them can move. *)
  Definition deadlocked (s : pool) : Prop :=
    ~ finished s /\ forall i s', ~ step s i s'.

  (* Thread [i] is never going to move again, whatever the others do. *)
  Definition stuck_for_good (s : pool) (i : nat) : Prop :=
    (exists t, s i = Some t /\ todo t <> []) /\
    forall s' s'', reach s s' -> ~ step s' i s''.

  (* Two threads are about to access the same variable, and one of them to modify it. *)
  Definition accesses (a : act) (x : field) : Prop := a = Rd x \/ a = Wr x.
  Definition race (s : pool) (x : field) : Prop :=
    exists i j ti tj a b ki kj, i <> j /\ s i = Some ti /\ s j = Some tj /\
      todo ti = a :: ki /\ todo tj = b :: kj /\ accesses a x /\ accesses b x /\ (a = Wr x \/ b = Wr x).

  (* Ways of putting code together. *)
  Definition skip : code := fun tr o => tr = [] /\ o = Done.
  Definition throws : code := fun tr o => tr = [] /\ o = Threw.
  Definition one (a : act) : code := fun tr o => tr = [a] /\ o = Done.
  Definition rd (x : field) := one (Rd x).
  Definition wr (x : field) := one (Wr x).
  Definition either (p q : code) : code := fun tr o => p tr o \/ q tr o.
  Definition pick {A} (p : A -> code) : code := fun tr o => exists a, p a tr o.
  (* [p] and, unless it threw, [q] *)
  Definition seq (p q : code) : code := fun tr o =>
    (p tr Threw /\ o = Threw) \/ exists t1 t2, p t1 Done /\ q t2 o /\ tr = t1 ++ t2.
  (* any number of times *)
  Inductive loop (p : code) : code :=
  | loop_end : loop p [] Done
  | loop_throw tr : p tr Threw -> loop p tr Threw
  | loop_next t1 t2 o : p t1 Done -> loop p t2 o -> loop p (t1 ++ t2) o.
  (* try { p } catch (...) {} *)
  Definition try_ (p : code) : code := fun tr o => o = Done /\ exists o', p tr o'.
  (* the scope of a scoped_lock, unique_lock or upgrade_lock: unlocked however the scope is left *)
  Definition scoped (l : lock) (m : mode) (p : code) : code := fun tr o =>
    exists t, p t o /\ tr = Acq l m :: t ++ [Rel l].
  (* the scope of a boost::upgrade_to_unique_lock *)
  Definition promoted (l : lock) (p : code) : code := fun tr o =>
    exists t, p t o /\ tr = Promote l :: t ++ [Demote l].
End Threads.
Arguments act : clear implicits.
Arguments thread : clear implicits.
Arguments pool : clear implicits.
Arguments code : clear implicits.
Declare Scope code_scope.
Delimit Scope code_scope with code.
Notation "p ;; q" := (seq p q) (at level 61, right associativity) : code_scope.
