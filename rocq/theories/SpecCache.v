(** * Specification vocabulary for per-frame histories

    Small, model-independent notions used in the statements of the cache theorems: they
    mention only lists of samples and their stamps. *)
From Coq Require Import ZArith List Sorting.Sorted.
From Verif Require Import RosTime Scalar LinearMath Cache.
Import ListNotations.
Open Scope Z_scope.

Section Spec.
Context {S : Scalar} {F : Type}.
Notation storage := (storage S F).

(** Newest first, no two samples with the same stamp. *)
Definition newest_first (l : list storage) : Prop :=
  StronglySorted (fun a b => st_stamp b < st_stamp a) l.

(** No sample is older than any other by more than [max]. *)
Definition within_window (max : duration) (l : list storage) : Prop :=
  forall x y, In x l -> In y l -> st_stamp y <= st_stamp x + max.

(** [newer] directly follows [older] in time among the samples of [l]. *)
Definition bracketing (l : list storage) (older newer : storage) (t : time) : Prop :=
  In older l /\ In newer l /\ st_stamp older < t < st_stamp newer /\
  forall x, In x l -> st_stamp x <= st_stamp older \/ st_stamp newer <= st_stamp x.

(** All stamps (plus the storage time) are representable ros::Time values. *)
Definition stamps_ok (max : duration) (l : list storage) : Prop :=
  Forall (fun x => valid_time (st_stamp x) /\ valid_time (st_stamp x + max)) l.

(** What a whole history of offered samples should leave behind: the first-offered sample
    of each stamp, provided it is inside the window of the newest stamp offered. *)
Definition retained (max : duration) (offered : list storage) (x : storage) : Prop :=
  (exists before after, offered = before ++ x :: after /\
     forall y, In y before -> st_stamp y <> st_stamp x) /\
  (forall y, In y offered -> st_stamp y <= st_stamp x + max).

(** Offering a list of samples one after the other. *)
Definition offer_all (c : cache S F) (xs : list storage) : cache S F :=
  fold_left (fun c x => fst (insertData c x)) xs c.

(** Operations on one frame's history. *)
Inductive cache_op := Offer (x : storage) | Clear.
Definition run_cache (c : cache S F) (ops : list cache_op) : cache S F :=
  fold_left (fun c o => match o with Offer x => fst (insertData c x) | Clear => clearList c end)
            ops c.
End Spec.
Arguments cache_op : clear implicits.
