(** * tf2_tools/scripts/view_frames.py

    On top of Introspection.v, whose [row]s are the content of allFramesAsYAML's text.  What PyYAML
    (not in /repo) makes of that text: the text "{}" is an empty mapping, an empty text is None,
    otherwise a dict with one entry per frame in the order of the text.  The parent and the
    broadcaster are quoted, so they are strings; the frame itself is an unquoted key, and what a
    plain scalar stands for is a parameter.  Not modelled: names that break YAML's or dot's syntax,
    the printed numbers after formatting, the files written and the call of dot. *)
From Coq Require Import ZArith Bool List String.
From Verif Require Import RosTime Scalar LinearMath Cache BufferCore Introspection.
Import ListNotations.

(** A key of the dict: a string, or another Python object (integer, float, bool, None, ...) given
    by its class under == and its str(). *)
Inductive ykey := KStr (s : string) | KOther (class : nat) (shown : string).
Definition ykey_eqb (a b : ykey) : bool :=
  match a, b with
  | KStr x, KStr y => String.eqb x y
  | KOther i _, KOther j _ => Nat.eqb i j
  | _, _ => false
  end.
(** str(el) *)
Definition str (k : ykey) : string := match k with KStr s => s | KOther _ s => s end.

Section Model.
Context {S : Scalar}.
Definition dict := list (ykey * row S).
(** d[k] = v: an existing key keeps its place *)
Fixpoint dict_set (d : dict) (k : ykey) (v : row S) : dict :=
  match d with
  | [] => [(k, v)]
  | (k', v') :: d' => if ykey_eqb k k' then (k', v) :: d' else (k', v') :: dict_set d' k v
  end.
(** k in d *)
Definition dict_in (d : dict) (k : ykey) : bool := existsb (fun e => ykey_eqb k (fst e)) d.

(** view_frames.py 51: yaml.safe_load(srv().frame_yaml); the inner [None] is Python's None.
    tf2_ros/buffer.py (__get_frames) and tf2_py.cpp 201-205 pass BufferCore::allFramesAsYAML() on. *)
Definition safe_load (resolve : string -> ykey) (text : option (list (row S))) : option dict :=
  match text with
  | None => Some []
  | Some [] => None
  | Some rows => Some (fold_left (fun d r => dict_set d (resolve (y_name r)) r) rows [])
  end.

(** One drawn edge *)
Record edge := mkEdge { g_from : string; g_to : string; g_label : row S }.
(** What generate_dot returns or raises *)
Inductive drawing :=
| NoData                                      (* "No tf data received" *)
| Graph (edges : list edge) (root : string)   (* [root]: the node the legend points to *)
| NoneHasNoLen                                (* TypeError from len(None) *)
| UnboundRoot.                                (* UnboundLocalError from root *)

(** 61-72: the loop; [root] unassigned = None *)
Fixpoint draw (data d : dict) (edges : list edge) (root : option string) : list edge * option string :=
  match d with
  | [] => (edges, root)
  | (el, m) :: d' =>
      draw data d' (edges ++ [mkEdge (y_parent m) (str el) m])
        (if negb (dict_in data (KStr (y_parent m))) then Some (y_parent m) else root)
  end.
(** 56-77 generate_dot *)
Definition generate_dot (data : option dict) : drawing :=
  match data with
  | None => NoneHasNoLen
  | Some [] => NoData
  | Some d => match draw d d [] None with
              | (edges, Some root) => Graph edges root
              | (_, None) => UnboundRoot
              end
  end.
(** 38-54 main: the buffer as it is after five seconds; allFramesAsYAML() is allFramesAsYAML(0.0) *)
Definition view_frames (resolve : string -> ykey) (s : core S) : res drawing :=
  text <- allFramesAsYAML s szero ;; Ok (generate_dot (safe_load resolve text)).
End Model.
Arguments dict S : clear implicits.
Arguments edge S : clear implicits.
Arguments drawing S : clear implicits.
