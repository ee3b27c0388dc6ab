(** * The service tf2_frames of the buffers of one node

    tf2_ros/src/buffer.cpp 42-51 (the constructor) and 177-181 (getFrames), tf2_ros/buffer.py 53-75.
    Buffers of one process are constructed, used and destroyed in any order and from several
    threads; a constructor first asks whether the service exists and then advertises it, and other
    threads may come in between.  What the ROS client libraries (not in /repo) do is assumed: a name
    is served once per node; advertising it again logs an error and returns an empty handle in
    roscpp, and raises ServiceException in rospy; ~Buffer (C++) shuts its ServiceServer down; rospy
    keeps a service, and with it the bound method and the buffer, until the node ends.
    The text is the list of rows of Introspection.v. *)
From Coq Require Import ZArith Bool List String.
From Verif Require Import RosTime Scalar LinearMath Cache BufferCore SpecCore Introspection.
Import ListNotations.

Section Model.
Context {S : Scalar}.
(** Between the two halves of the constructor, with what the first decided; or constructed *)
Inductive phase := Building (advertise : bool) | Alive.
Record node := mkNode {
  n_next : nat;                               (* ids below it are used *)
  n_buf : nat -> option (phase * core S);
  n_server : option nat;                      (* whose getFrames serves the name *)
  n_raised : list nat }.                      (* constructors that raised (Python) *)
Definition node0 : node := mkNode 0 (fun _ => None) None [].
Definition upd (f : nat -> option (phase * core S)) (b : nat) v : nat -> option (phase * core S) :=
  fun x => if Nat.eqb x b then v else f x.

Inductive event :=
| Begin (b : nat) (debug : bool) (ct : duration)   (* BufferCore(cache_time), then exists() *)
| Finish (b : nat)                                 (* the rest of the constructor *)
| Use (b : nat) (o : core_op S)
| Destroy (b : nat).                               (* ~Buffer; in Python the last reference of the program *)

Definition nstep (py : bool) (s : node) (e : event) : option node :=
  match e with
  | Begin b debug ct =>                            (* buffer.cpp 45; buffer.py 67-69 *)
      if Nat.ltb b (n_next s) then None else
      let advertise := debug && match n_server s with None => true | Some _ => false end in
      Some (mkNode (b + 1) (upd (n_buf s) b (Some (Building advertise, init_core ct))) (n_server s) (n_raised s))
  | Finish b =>                                    (* buffer.cpp 47-49; buffer.py 70 *)
      match n_buf s b with
      | Some (Building advertise, c) =>
          let alive := upd (n_buf s) b (Some (Alive, c)) in
          if advertise then
            match n_server s with
            | None => Some (mkNode (n_next s) alive (Some b) (n_raised s))
            | Some _ => if py then Some (mkNode (n_next s) (upd (n_buf s) b None) (n_server s) (b :: n_raised s))
                        else Some (mkNode (n_next s) alive (n_server s) (n_raised s))
            end
          else Some (mkNode (n_next s) alive (n_server s) (n_raised s))
      | _ => None
      end
  | Use b o =>
      match n_buf s b with
      | Some (Alive, c) => Some (mkNode (n_next s) (upd (n_buf s) b (Some (Alive, SpecCore.step c o))) (n_server s) (n_raised s))
      | _ => None
      end
  | Destroy b =>
      match n_buf s b with
      | Some (Alive, c) =>
          let mine := match n_server s with Some b' => Nat.eqb b b' | None => false end in
          if mine then if py then Some s else Some (mkNode (n_next s) (upd (n_buf s) b None) None (n_raised s))
          else Some (mkNode (n_next s) (upd (n_buf s) b None) (n_server s) (n_raised s))
      | _ => None
      end
  end.
(** A call of the service: None = there is none; otherwise getFrames, 179 (allFramesAsYAML(0.0)) *)
Definition call (s : node) : option (res (option (list (row S)))) :=
  match n_server s with
  | None => None
  | Some b => match n_buf s b with Some (_, c) => Some (allFramesAsYAML c szero) | None => None end
  end.
Inductive runs (py : bool) : list event -> node -> Prop :=
| runs_nil : runs py [] node0
| runs_step h s e s' : runs py h s -> nstep py s e = Some s' -> runs py (h ++ [e]) s'.
End Model.
Arguments node S : clear implicits.
Arguments event S : clear implicits.
