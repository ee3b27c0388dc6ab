(** * Properties C91: objects and reference counts in the Python bindings *)
From Coq Require Import ZArith Bool List String Lia.
From Verif Require Import RosTime Scalar LinearMath Cache BufferCore PyTime PyCore PyRefs SpecRefs RefsProofs RefsMain RefsConvert.
Import ListNotations.
Open Scope string_scope.
Open Scope list_scope.
Open Scope nat_scope.

(** ** C91 *)
(** Given any object whatever, a set_transform call that does not end the process frees nothing
    and changes nothing but reference counts: the result None gains its reference, and the message
    classes each keep one for every check the call has made. *)
Theorem C91_balance :
  forall (S : Scalar) strict p (h h' : @heap S) om r, sound h -> modules h -> read_transform strict p h = Some (h', (om, r)) ->
  exists l, In l [ []; [Glob GVectorClass]; [Glob GVectorClass; Glob GQuaternionClass]; [Glob GVectorClass; Glob GQuaternionClass; Glob GNone] ] /\
    gained h h' l /\ sound h'.
Proof.
  intros S strict p h h' om r Hs M E. destruct (proj1 (read_inv strict p h h' om r Hs M E)) as (l & L & G).
  exists l. split; [exact L|]. split; [exact G|exact (gained_sound _ _ _ G Hs)].
Qed.
Print Assumptions C91_balance.

(** A message is read as it is; the C++ buffer and the caller see what C69 and C70 say of it. *)
Theorem C91_messages_are_read :
  forall (S : Scalar) p m (h : @heap S) is_static authority (s : core S), sound h -> modules h -> message h p m -> h_err h = false ->
  let kept := [Glob GVectorClass; Glob GQuaternionClass; Glob GNone] in
  match py_set is_static s m authority with
  | (s', PyOk _) => exists h', set_transform false is_static p authority s h = Some (h', s', Returned (Glob GNone)) /\ gained h h' kept /\ h_err h' = false
  | (s', PyAbort) => exists h', set_transform false is_static p authority s h = Some (h', s', Terminated)
  | (_, PyCrash) => set_transform false is_static p authority s h = None
  | _ => False
  end.
Proof.
  intros S p m h is_static authority s Hs M Hm He kept. pose proof (read_fwd p m h Hs M Hm) as F.
  unfold set_transform, py_set, arg_time. destruct (py_time (tm_stamp m)) as [t|cl e|]; cbn [bare].
  - destruct F as (h' & E & G & R). rewrite E. destruct (setTransform s (mkTmsg t (tm_frame m) (tm_child m) (tm_trans m) (tm_rot m)) authority is_static) as [s' [b|cl e|]]; cbn [bare pbind].
    + exists h'. rewrite R, He. split; [reflexivity|]. split; [exact G|reflexivity].
    + exists h'. reflexivity.
    + reflexivity.
  - destruct F as (h' & E & _). rewrite E. exists h'. reflexivity.
  - rewrite F. reflexivity.
Qed.
Print Assumptions C91_messages_are_read.

(** And nothing else is: when None comes back without an error, the object was a message and the
    transform handed to the C++ buffer is that message (its stamp converted as in C69). *)
Theorem C91_only_messages_are_read :
  forall (S : Scalar) strict p (h h' : @heap S) m r, sound h -> modules h -> read_transform strict p h = Some (h', (Some m, r)) -> h_err h' = false ->
  exists m0, message h p m0 /\ py_time (tm_stamp m0) = Ok (tm_stamp m) /\
    tm_frame m0 = tm_frame m /\ tm_child m0 = tm_child m /\ tm_trans m0 = tm_trans m /\ tm_rot m0 = tm_rot m.
Proof. intros S strict p h h' m r Hs M E He. destruct (read_inv strict p h h' (Some m) r Hs M E) as (_ & _ & _ & H). exact (proj2 (H He)). Qed.
Print Assumptions C91_only_messages_are_read.

(** None comes back, with no error pending, only for a message, and after the C++ buffer was handed
    that message; NULL comes back only with an error pending. *)
Theorem C91_none_means_taken :
  forall (S : Scalar) strict is_static p authority (s s' : core S) (h h' : @heap S) v, sound h -> modules h ->
  set_transform strict is_static p authority s h = Some (h', s', Returned v) ->
  v = Glob GNone /\ h_err h' = false /\
  exists m0 t b, message h p m0 /\ py_time (tm_stamp m0) = Ok t /\
    setTransform s (mkTmsg t (tm_frame m0) (tm_child m0) (tm_trans m0) (tm_rot m0)) authority is_static = (s', Ok b).
Proof.
  intros S strict is_static p authority s s' h h' v Hs M E. unfold set_transform in E.
  destruct (read_transform strict p h) as [[h1 [[m|] r]]|] eqn:X; [| |discriminate E].
  - destruct (read_inv strict p h h1 (Some m) r Hs M X) as (_ & Rr & _ & Hm).
    destruct (setTransform s m authority is_static) as [s1 [b|cl e|]] eqn:Y; [|discriminate E|discriminate E].
    destruct (h_err h1) eqn:He; [discriminate E|]. injection E as <- <- Ev. rewrite Rr in Ev. injection Ev as <-.
    split; [reflexivity|]. split; [exact He|]. destruct (Hm eq_refl) as (_ & m0 & Hm0 & Ht & E1 & E2 & E3 & E4).
    exists m0, (tm_stamp m), b. split; [exact Hm0|]. split; [exact Ht|]. rewrite E1, E2, E3, E4. destruct m. exact Y.
  - destruct (read_inv strict p h h1 None r Hs M X) as (_ & [-> | ->]); discriminate E.
Qed.
Print Assumptions C91_none_means_taken.
Local Ltac nxt E h1 r X := match type of E with context [bind ?c ?f ?h] => unfold bind at 1 in E; destruct (c h) as [[h1 r]|] eqn:X; [|discriminate E] end.
Theorem C91_null_means_error :
  forall (S : Scalar) strict is_static p authority (s s' : core S) (h h' : @heap S), sound h -> modules h ->
  set_transform strict is_static p authority s h = Some (h', s', Raised) -> h_err h' = true.
Proof.
  intros S strict is_static p authority s s' h h' Hs M E. unfold set_transform in E.
  destruct (read_transform strict p h) as [[h1 [[m|] r]]|] eqn:X; [| |discriminate E].
  - destruct (setTransform s m authority is_static) as [s1 [b|cl e|]]; [|discriminate E|discriminate E].
    destruct (h_err h1) eqn:He; [injection E as <- _; exact He|]. injection E as _ _ Er. destruct (read_inv strict p h h1 (Some m) r Hs M X) as (_ & Rr & _). rewrite Rr in Er. discriminate Er.
  - injection E as <- <- ->. clear - X. unfold read_transform in X.
    nxt X h1' a1 Y1. nxt X h2 a2 Y2. nxt X h3 a3 Y3. nxt X h4 a4 Y4. nxt X h5 a5 Y5. nxt X h6 st Y6. nxt X h7 t Y7.
    destruct t as [[t|cl e|]|]; [|discriminate X|discriminate X|].
    + nxt X h8 a8 Y8. nxt X h9 a9 Y9. nxt X h10 ok Y10. destruct ok; [|injection X as <-; reflexivity].
      nxt X h11 a11 Y11. nxt X h12 a12 Y12. nxt X h13 a13 Y13. nxt X h14 a14 Y14. nxt X h15 a15 Y15. nxt X h16 a16 Y16. nxt X h17 a17 Y17. nxt X h18 ok Y18.
      destruct ok; [|injection X as <-; reflexivity].
      nxt X h19 a19 Y19. nxt X h20 a20 Y20. nxt X h21 a21 Y21. nxt X h22 a22 Y22. nxt X h23 a23 Y23. nxt X h24 a24 Y24. nxt X h25 a25 Y25. nxt X h26 a26 Y26. nxt X h27 a27 Y27. discriminate X.
    + injection X as <-. unfold stamp_of in Y7. destruct st as [a|]; [|injection Y7 as <-; reflexivity].
      nxt Y7 hh d Z1. destruct d; try (injection Y7 as <-; reflexivity). nxt Y7 hh2 b Z2. nxt Y7 hh3 d3 Z3. destruct d3; try discriminate Y7. nxt Y7 hh4 b4 Z4. discriminate Y7.
Qed.
Print Assumptions C91_null_means_error.

(** Calls are not balanced: the classes Vector3 and Quaternion keep a reference for every call. *)
Theorem C91_balance_refuted :
  forall (S : Scalar) k p m (h : @heap S) t, sound h -> modules h -> message h p m -> py_time (tm_stamp m) = Ok t ->
  exists h', read_times k p h = Some h' /\
    forall a, get h' a = match get h a with
                         | Some o => Some (mkObj (o_refs o + k * occurrences a [Glob GVectorClass; Glob GQuaternionClass; Glob GNone]) (o_class o) (o_slots o) (o_data o))
                         | None => None end.
Proof. exact (fun S => @read_many S). Qed.
Print Assumptions C91_balance_refuted.

(** The message a lookup returns carries the transform, belongs to the caller alone, and leaves
    nothing behind: when the caller lets go of it the interpreter is as it was.  A stamp that
    rospy cannot represent ends the process. *)
Theorem C91_returned_messages :
  forall (S : Scalar) (m : tmsg S) (h : @heap S), sound h -> modules h -> h_new h = [] ->
  match to_python m with
  | PyOk m' => exists h' r, transform_converter m h = Some (h', r) /\ message h' r m' /\ h_err h' = h_err h /\
      get h r = None /\ (exists o, get h' r = Some o /\ o_refs o = 1) /\
      (forall a o, get h a = Some o -> get h' a = Some (mkObj (o_refs o + occurrences a [Glob GInt0]) (o_class o) (o_slots o) (o_data o))) /\
      exists h'', decref h' r = Some h'' /\ same h h''
  | _ => transform_converter m h = None
  end.
Proof.
  intros S m h Hs M Hn. unfold to_python, rospy_time. destruct (tm_stamp m <? 2 ^ 31 * 10 ^ 9)%Z eqn:E.
  - apply Z.ltb_lt in E. exact (convert_ok m h Hs M Hn E).
  - unfold transform_converter. rewrite E.
    assert (B : forall A B (c : @code S A) (f : A -> @code S B) x, (forall a y, f a y = None) -> bind c f x = None)
      by (intros A B c f x H; unfold bind; destruct (c x) as [[y a]|]; [apply H|reflexivity]).
    repeat (apply B; intros). reflexivity.
Qed.
Print Assumptions C91_returned_messages.

(** So does a list of names (_getFrameStrings, _chain). *)
Theorem C91_returned_lists :
  forall (S : Scalar) (l : list string) (h : @heap S), exists h' r, list_of_strings l h = Some (h', r) /\
  (exists items, get h' r = Some (mkObj 1 None (map (fun v => ("item", Held v)) items) DOther) /\ List.length items = List.length l /\
     forall i t, nth_error l i = Some t -> exists v, nth_error items i = Some v /\ get h' v = Some (mkObj 1 None [] (DText t))) /\
  (forall a, get h a <> None -> get h' a = get h a) /\ get h r = None /\ h_err h' = h_err h /\
  exists h'', decref h' r = Some h'' /\ same h h''.
Proof. exact (fun S => @list_ok S). Qed.
Print Assumptions C91_returned_lists.

(** ** Cases *)
Section Case.
Context {S : Scalar}.
Definition globs : @globals S :=
  mkGlobals (Some (mkObj 9 None [] DOther)) (Some (mkObj 1 None [] (DNum szero))) (Some (mkObj 1 None [] (DText ""))) (Some (mkObj 1 None [] DOther))
    (Some (mkObj 1 None [("Time", Held (Glob GTimeClass))] DOther))
    (Some (mkObj 1 None [("Vector3", Held (Glob GVectorClass)); ("Quaternion", Held (Glob GQuaternionClass)); ("TransformStamped", Held (Glob GStampedClass))] DOther))
    (Some (mkObj 2 None [] DOther)) (Some (mkObj 1 None [] DOther)) (Some (mkObj 3 None [] DOther)) (Some (mkObj 4 None [] DOther)).
(** a message at 0; its attributes can be changed; one number serves all coordinates *)
Definition world (msg tra rot : list (string * slot)) : @heap S :=
  mkHeap globs (fun n => match n with
    | 0 => Some (mkObj 1 (Some (Glob GStampedClass)) msg DOther)
    | 1 => Some (mkObj 1 None [("stamp", Held (Old 5)); ("frame_id", Held (Old 6))] DOther)
    | 2 => Some (mkObj 1 None [("translation", Held (Old 3)); ("rotation", Held (Old 4))] DOther)
    | 3 => Some (mkObj 1 (Some (Glob GVectorClass)) tra DOther)
    | 4 => Some (mkObj 1 (Some (Glob GQuaternionClass)) rot DOther)
    | 5 => Some (mkObj 1 (Some (Glob GTimeClass)) [] (DTime (5 * 10 ^ 9)%Z))
    | 6 => Some (mkObj 1 None [] (DText "map")) | 7 => Some (mkObj 1 None [] (DText "base"))
    | 8 => Some (mkObj 7 None [] (DNum sone)) | _ => None end) 9 [] false.
Definition msg0 : list (string * @slot S) := [("header", Held (Old 1)); ("child_frame_id", Held (Old 7)); ("transform", Held (Old 2))].
Definition tra0 : list (string * @slot S) := [("x", Held (Old 8)); ("y", Held (Old 8)); ("z", Held (Old 8))].
Definition rot0 : list (string * @slot S) := [("x", Held (Old 8)); ("y", Held (Old 8)); ("z", Held (Old 8)); ("w", Held (Old 8))].
Definition m0 : tmsg S := mkTmsg (5 * 10 ^ 9)%Z "map" "base" (V3 sone sone sone) (Q4 sone sone sone sone).

Example C91_case : sound (world msg0 tra0 rot0) /\ modules (world msg0 tra0 rot0) /\ message (world msg0 tra0 rot0) (Old 0) m0 /\ h_new (world msg0 tra0 rot0) = [].
Proof.
  split; [|split; [|split; [|reflexivity]]].
  - intros a o E.
    assert (X : forall l : list (string * @slot S), (forall n v, In (n, Held v) l -> get (world msg0 tra0 rot0) v <> None) -> forall n v, find_slot n l = Some (Held v) -> get (world msg0 tra0 rot0) v <> None).
    { induction l as [|[m s] l IH]; intros H n v F; [discriminate F|]. cbn [find_slot] in F. destruct (String.eqb m n); [injection F as ->; exact (H m v (or_introl eq_refl))|].
      apply (IH (fun n v I => H n v (or_intror I)) n v F). }
    assert (Y : forall l : list (string * @slot S), Forall (fun s => match snd s with Held v => get (world msg0 tra0 rot0) v <> None | Made _ => True end) l ->
      forall n v, find_slot n l = Some (Held v) -> get (world msg0 tra0 rot0) v <> None).
    { intros l H. apply X. intros n v I. rewrite Forall_forall in H. exact (H _ I). }
    destruct a as [g|n|k].
    + destruct g; injection E as <-; (split; [cbn; lia|]); apply Y; repeat constructor; cbn; discriminate.
    + do 9 (destruct n as [|n]; [injection E as <-; (split; [cbn; lia|]); apply Y; repeat constructor; cbn; discriminate|]). discriminate E.
    + destruct k; discriminate E.
  - repeat split; try discriminate; eexists; split; reflexivity.
  - exists (Old 1), (Old 2), (Old 3), (Old 4). repeat match goal with |- _ /\ _ => split end;
      first [ solve [eexists; split; reflexivity] | solve [eexists; split; eexists; split; reflexivity] ].
Qed.

(** an object without a header, or one whose header is a property, ends the process *)
Example C91_no_header :
  read_transform false (Old 0) (world [("child_frame_id", Held (Old 7)); ("transform", Held (Old 2))] tra0 rot0) = None /\
  read_transform false (Old 0) (world [("header", Made DOther); ("child_frame_id", Held (Old 7)); ("transform", Held (Old 2))] tra0 rot0) = None.
Proof. split; reflexivity. Qed.
(** so does a coordinate that is a property: the float is freed before it is read *)
Example C91_computed_coordinate :
  read_transform false (Old 0) (world msg0 [("x", Made (DNum sone)); ("y", Held (Old 8)); ("z", Held (Old 8))] rot0) = None.
Proof. vm_compute. reflexivity. Qed.
(** a missing coordinate is a TypeError, and nothing reaches the buffer *)
Example C91_missing_coordinate : exists h',
  read_transform false (Old 0) (world msg0 [("x", Held (Old 8)); ("y", Held (Old 8))] rot0) = Some (h', (None, Raised)).
Proof. eexists. vm_compute. reflexivity. Qed.
(** a coordinate that is no number reaches the buffer as -1; the caller gets an exception all the same *)
Example C91_text_coordinate : exists h' m,
  read_transform false (Old 0) (world msg0 [("x", Held (Old 6)); ("y", Held (Old 8)); ("z", Held (Old 8))] rot0) = Some (h', (Some m, Returned (Glob GNone))) /\
  h_err h' = true /\ vx (tm_trans m) = sopp sone /\ vy (tm_trans m) = sone.
Proof. eexists. eexists. split; [vm_compute; reflexivity|]. split; [reflexivity|]. split; reflexivity. Qed.
(** so does a message whose vector is of another class, where warnings are errors *)
Example C91_warnings_as_errors : exists h',
  read_transform true (Old 0) (put (world msg0 tra0 rot0) (Old 3) (Some (mkObj 1 None tra0 DOther))) = Some (h', (Some m0, Returned (Glob GNone))) /\ h_err h' = true.
Proof. eexists. split; [vm_compute; reflexivity|reflexivity]. Qed.
End Case.
