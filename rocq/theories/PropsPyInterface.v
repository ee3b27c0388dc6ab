(** * Property C73: transform and convert in Python *)
From Coq Require Import ZArith Bool String List Reals Lra Lia.
From Verif Require Import RosTime Scalar LinearMath Cache BufferCore Instances RealSlerp RealQuat SpecReal GeomMsgs SpecGeom GeomReal PropsGeom ForeignGeom SpecForeign
  SensorMsgs BufferInterface ExampleBuffers SpecWait PyTime PyCore SpecPy PyBuffer SpecPyWait PyWaitProofs PropsPyWait PyInterface SpecPyInterface PyInterfaceProofs.
Import ListNotations.
Open Scope Z_scope.

(** ** Registrations *)
(** The last registration for a class counts, the other classes and the conversions are untouched. *)
Theorem C73_last_registration_counts :
  forall (S : Scalar) (E : Type) (r : registries S E),
  (forall (regs : list (pyclass * transformer S E)) k,
     let r' := fold_left (fun r kf => add r (fst kf) (snd kf)) regs r in
     get r' k = match last_for k regs with Some f => Return f | None => get r k end /\ forall a b, convert r' a b = convert r a b) /\
  (forall (regs : list (pyclass * converter S E)) k,
     get_to_msg (fold_left (fun r kf => add_to_msg r (fst kf) (snd kf)) regs r) k =
       match last_for k regs with Some f => Return f | None => get_to_msg r k end) /\
  (forall (regs : list (pyclass * converter S E)) k,
     get_from_msg (fold_left (fun r kf => add_from_msg r (fst kf) (snd kf)) regs r) k =
       match last_for k regs with Some f => Return f | None => get_from_msg r k end).
Proof.
  intros S E r. split; [|split; intros regs k; [apply last_wins_to|apply last_wins_from]].
  intros regs k r'. split; [apply last_wins|]. unfold r'. clear r'. revert r. induction regs as [|[k' f] regs IH]; intros r a b; cbn [fold_left fst snd]; [reflexivity|].
  rewrite IH. reflexivity.
Qed.
Print Assumptions C73_last_registration_counts.

(** The order in which the three packages are imported makes no difference. *)
Theorem C73_import_order_is_irrelevant :
  forall (S : Scalar) (E : Type) (r r' : registries S E), stock r -> stock r' ->
  (forall a b, convert r a b = convert r' a b) /\
  (forall bi o u timeout new_type, py_transform_to r bi o u timeout new_type = py_transform_to r' bi o u timeout new_type).
Proof.
  intros S E r r' H H'. assert (C : forall a b, convert r a b = convert r' a b) by (intros a b; rewrite (convert_stock r H), (convert_stock r' H'); reflexivity).
  split; [exact C|]. intros bi o u timeout new_type. rewrite !py_transform_to_is.
  destruct (stock_maps r H) as (M & _). destruct (stock_maps r' H') as (M' & _). rewrite M, M'.
  destruct (stock_do (class_of o)) as [f|]; [|reflexivity]. destruct (header_of o) as [h|]; [|reflexivity]. f_equal.
  destruct (lookup_to bi u h timeout) as [t|x]; cbn [obind]; [|reflexivity]. destruct (f o t) as [o'|x]; cbn [obind]; [|reflexivity].
  destruct new_type as [b|]; cbn [finish]; [rewrite C|]; reflexivity.
Qed.
Print Assumptions C73_import_order_is_irrelevant.

(** ** transform *)
(** An object of a class nobody registered raises TypeException, one without a header
    AttributeError, and neither asks the buffer (nor waits) first. *)
Theorem C73_bad_objects_are_refused_without_a_lookup :
  forall (S : Scalar) (E : Type) (r : registries S E) bi o u timeout new_type, stock r ->
  (~ In (class_of o) transformable -> py_transform_to r bi o u timeout new_type = ([], Raise XTypeException)) /\
  (In (class_of o) transformable -> header_of o = None -> py_transform_to r bi o u timeout new_type = ([], Raise XAttributeError)).
Proof.
  intros S E r bi o u timeout new_type H. destruct (stock_maps r H) as (M & _). rewrite py_transform_to_is, M. split.
  - intros N. rewrite unknown by exact N. reflexivity.
  - intros I Hh. destruct (known (S:=S) (E:=E) _ I) as [f ->]. rewrite Hh. reflexivity.
Qed.
Print Assumptions C73_bad_objects_are_refused_without_a_lookup.

(** Otherwise the buffer is asked exactly once: for the target (and target time and fixed frame),
    the frame and stamp of the object and the timeout given.  What it raises is raised. *)
Theorem C73_exactly_one_lookup :
  forall (S : Scalar) (E : Type) (r : registries S E) bi o h u timeout new_type, stock r ->
  In (class_of o) transformable -> header_of o = Some h ->
  fst (py_transform_to r bi o u timeout new_type) = [call_to u h timeout] /\
  forall x, lookup_to bi u h timeout = Raise x -> snd (py_transform_to r bi o u timeout new_type) = Raise x.
Proof.
  intros S E r bi o h u timeout new_type H I Hh. destruct (stock_maps r H) as (M & _). rewrite py_transform_to_is, M, Hh.
  destruct (known (S:=S) (E:=E) _ I) as [f ->]. cbn [fst snd]. split; [reflexivity|]. intros x ->. reflexivity.
Qed.
Print Assumptions C73_exactly_one_lookup.

(** If it returns the transform T, the result is an object of the same class, moved by T and with
    T's header; with new_type it is what convert makes of that. *)
Theorem C73_result_is_the_object_moved :
  forall (E : Type) (r : registries RS E) bi o h u timeout T, stock r ->
  In (class_of o) transformable -> header_of o = Some h -> well_formed o ->
  lookup_to bi u h timeout = Return T -> is_unit (rot T) ->
  exists o', snd (py_transform_to r bi o u timeout None) = Return o' /\ class_of o' = class_of o /\ object_moved T o o' /\
    forall b, snd (py_transform_to r bi o u timeout (Some b)) = obind (convert r o' b) (fun c => Return (fst c)).
Proof.
  intros E r bi o h u timeout T H I Hh W L U. destruct (stock_maps r H) as (M & _).
  destruct (known (S:=RS) (E:=E) _ I) as [f F]. destruct (stock_moves T o f U W F) as (o' & Ef & Mo).
  exists o'. rewrite py_transform_to_is, M, F, Hh. cbn [snd]. rewrite L. cbn [obind]. rewrite Ef. cbn [obind finish].
  split; [reflexivity|]. split.
  - destruct Mo as [_ Mo]. destruct o, o'; cbn [class_of]; try reflexivity; contradiction.
  - split; [exact Mo|]. intros b. rewrite py_transform_to_is, M, F, Hh. cbn [snd]. rewrite L. cbn [obind]. rewrite Ef. reflexivity.
Qed.
Print Assumptions C73_result_is_the_object_moved.

(** In front of a tf2_ros.Buffer: the object is moved by what the buffer held when the wait was
    over, and tf2's exceptions come through unchanged. *)
Theorem C73_in_front_of_a_buffer :
  forall (S : Scalar) (w : pworld S) (r : registries S buffer_exn) o h u new_type fuel i timeout b j n f,
  header_of o = Some h -> get r (class_of o) = Return f ->
  can_within fuel w i (to_frame u h) timeout = Some (WDone b j n) ->
  snd (py_transform_to r (buffer_at fuel w i) o u timeout new_type) =
    match ask (to_frame u h) (p_core (w j)) with
    | PyOk m => obind (f o (to_message m)) (fun res => finish r res new_type)
    | p => Raise (XLookup (BPy (failed p)))
    end.
Proof.
  intros S w r o h u new_type fuel i timeout b j n f Hh G C. rewrite py_transform_to_is. unfold get, dget in G.
  destruct (type_map r (class_of o)) as [f'|]; [|discriminate]. injection G as ->. rewrite Hh. cbn [snd].
  assert (L : lookup_to (buffer_at fuel w i) u h timeout = as_outcome (lookup_within fuel w i (to_frame u h) timeout)) by (destruct u as [t|[[t t1] fx]]; reflexivity).
  rewrite L, (lookup_within_is _ _ _ _ _ _ _ _ C). destruct (ask (to_frame u h) (p_core (w j))); reflexivity.
Qed.
Print Assumptions C73_in_front_of_a_buffer.

(** Conversions the user registers, in any process.  One registered for exactly (class of the
    argument, class asked for) is the one used; one for another pair changes nothing; and without
    one for the pair, the argument goes through its message: to_msg of its own class, then from_msg
    of the class asked for. *)
Theorem C73_registered_conversions_are_used :
  forall (S : Scalar) (E : Type) (r : registries S E) (a : pyobj S) b (f g : converter S E),
  (f a <> Raise XTypeException -> convert (add_convert r (class_of a, b) f) a b = f a) /\
  (forall k, k <> (class_of a, b) -> convert (add_convert r k f) a b = convert r a b) /\
  (class_of a <> b -> get_convert r (class_of a, b) = Raise XTypeException ->
   forall m same m' same', f a = Return (m, same) -> g m = Return (m', same') ->
   convert (add_from_msg (add_to_msg r (class_of a) f) b g) a b = Return (m', same && same')).
Proof.
  intros S E r a b f g.
  assert (P : forall k k' : pyclass * pyclass, pair_eqb k k' = true <-> k = k').
  { intros [x y] [x' y']. unfold pair_eqb. cbn [fst snd]. rewrite andb_true_iff, !class_eqb_eq. intuition congruence. }
  split; [|split].
  - intros N. unfold convert, get_convert, dget, add_convert, dset. cbn [convert_map].
    rewrite (proj2 (P _ _) eq_refl). cbn [obind]. destruct (f a) as [x|[| | |e]]; try reflexivity. congruence.
  - intros k N. unfold convert, get_convert, get_to_msg, get_from_msg, dget, add_convert, dset. cbn [convert_map to_msg_map from_msg_map].
    destruct (pair_eqb (class_of a, b) k) eqn:X; [apply P in X; congruence|reflexivity].
  - intros N G m same m' same' F G'. unfold convert, get_convert, get_to_msg, get_from_msg, dget, add_from_msg, add_to_msg, dset in *. cbn [convert_map to_msg_map from_msg_map] in *.
    destruct (convert_map r (class_of a, b)); [discriminate|]. cbn [obind]. rewrite (proj2 (class_eqb_neq _ _) N), !class_eqb_refl. cbn [obind]. rewrite F. cbn [obind fst snd]. rewrite G'. reflexivity.
Qed.
Print Assumptions C73_registered_conversions_are_used.

(** ** convert *)
(** To its own class: an equal, new object (a PyKDL.Vector gets a new header with the same stamp
    and frame; without a header it raises AttributeError). *)
Theorem C73_convert_to_the_same_class :
  forall (S : Scalar) (E : Type) (r : registries S E) (a : pyobj S), stock r ->
  convert r a (class_of a) =
    match a with
    | OKVector (Some h) v => Return (OKVector (Some (mkHeader 0 (h_stamp h) (h_frame h))) v, false)
    | OKVector None v => Raise XAttributeError
    | _ => Return (a, false)
    end.
Proof.
  intros S E r a H. rewrite (convert_stock r H). destruct a as [m|m|m|m|c|[h|] v|h x|h t|h w|n h]; cbn [class_of class_eqb convert_vector Stamped]; try reflexivity.
  rewrite Nat.eqb_refl. reflexivity.
Qed.
Print Assumptions C73_convert_to_the_same_class.

(** PointStamped and PyKDL.Vector: coordinates, stamp and frame survive both ways. *)
Theorem C73_point_and_vector_round_trip :
  forall (S : Scalar) (E : Type) (r : registries S E) h (v : vec3 S), stock r ->
  let point := OPoint (mkMstamped h (mkXyz (vx v) (vy v) (vz v))) in
  convert r point KVector = Return (OKVector (Some (mkHeader 0 (h_stamp h) (h_frame h))) v, false) /\
  convert r (OKVector (Some h) v) PointStamped = Return (point, false).
Proof.
  intros S E r h v H. cbv zeta. rewrite !(convert_stock r H). cbn [class_of class_eqb stock_to stock_from to_msg_msg from_msg_vector to_msg_vector from_msg_msg obind fst snd andb m_data m_header gx gy gz].
  destruct v as [x y z]. split; reflexivity.
Qed.
Print Assumptions C73_point_and_vector_round_trip.

(** For points, transforming and then converting is converting and then transforming, bit for bit
    (if the lookup leaves header.seq at 0, as tf2_py does). *)
Theorem C73_transform_then_convert :
  forall (S : Scalar) (E : Type) (r : registries S E) bi m c u timeout, stock r ->
  (forall h t, lookup_to bi u h timeout = Return t -> h_seq (t_header t) = 0) ->
  convert r (OPoint m) KVector = Return c ->
  snd (py_transform_to r bi (OPoint m) u timeout (Some KVector)) = snd (py_transform_to r bi (fst c) u timeout None).
Proof.
  intros S E r bi m c u timeout H Z0 C. destruct (stock_maps r H) as (M & _). rewrite (convert_stock r H) in C. cbn in C. injection C as <-.
  rewrite !py_transform_to_is, !M. cbn [class_of stock_do header_of fst snd Stamped].
  assert (L : lookup_to bi u (mkHeader 0 (h_stamp (m_header m)) (h_frame (m_header m))) timeout = lookup_to bi u (m_header m) timeout)
    by (destruct u as [t|[[t t1] fx]]; reflexivity).
  rewrite L. destruct (lookup_to bi u (m_header m) timeout) as [t|x] eqn:El; cbn [obind]; [|reflexivity].
  cbn [do_transform_point kdl_do_transform_vector obind finish]. rewrite (convert_stock r H). cbn [class_of class_eqb stock_to stock_from to_msg_msg from_msg_vector obind fst snd].
  specialize (Z0 _ _ El). unfold py_do_transform_point, py_transform_to_kdl, Stamped. cbn [m_data m_header gx gy gz kdl_do_transform_vector obind].
  destruct t as [[sq st fr] ch tr]. cbn [t_header h_seq h_stamp h_frame] in *. subst sq.
  destruct (kdl_apply _ _) as [x y z]. reflexivity.
Qed.
Print Assumptions C73_transform_then_convert.

Example C73_buffer_leaves_seq_at_0 :
  forall (S : Scalar) fuel (w : pworld S) i u timeout h t, lookup_to (buffer_at fuel w i) u h timeout = Return t -> h_seq (t_header t) = 0.
Proof.
  intros S fuel w i u timeout h t. assert (X : forall r, as_outcome (S:=S) r = Return t -> h_seq (t_header t) = 0).
  { intros [[m j n|x|p]|] H; cbn [as_outcome] in H; try discriminate. injection H as <-. reflexivity. }
  destruct u as [target|[[target t1] fixed]]; cbn [lookup_to buffer_at pi_lookup pi_lookup_full]; apply X.
Qed.

(** Everything else: TypeException exactly if the classes differ and one of them has no message. *)
Theorem C73_convert_raises_TypeException :
  forall (S : Scalar) (E : Type) (r : registries S E) a b, stock r ->
  convert r a b = Raise XTypeException <->
  class_of a <> b /\ (~ In (class_of a) (KVector :: messages) \/ ~ In b (KVector :: messages)).
Proof.
  intros S E r a b H. rewrite (convert_stock r H). unfold messages. cbn [In].
  destruct a as [m|m|m|m|c|[h|] v|h x|h t|h w|n h]; destruct b as [| | | | | | | | |k]; cbn [class_of class_eqb stock_to stock_from to_msg_msg to_msg_vector from_msg_msg from_msg_vector convert_vector obind fst snd];
    try (split; [discriminate|intuition congruence]); try (split; [intros _; split; [discriminate|intuition congruence]|reflexivity]).
  destruct (Nat.eqb_spec n k) as [->|N]; [split; [discriminate|intuition congruence]|]. split; [intros _; split; [congruence|intuition congruence]|reflexivity].
Qed.
Print Assumptions C73_convert_raises_TypeException.

(** A conversion that returns need not return the class asked for: it does exactly if that is the
    class of the argument, or PyKDL.Vector, or PointStamped for a PyKDL.Vector. *)
Theorem C73_class_of_the_result :
  forall (S : Scalar) (E : Type) (r : registries S E) a b a' same, stock r -> convert r a b = Return (a', same) ->
  (class_of a' = b <-> class_of a = b \/ b = KVector \/ (class_of a = KVector /\ b = PointStamped)) /\
  (class_of a' <> b -> In b messages /\ (In (class_of a) messages /\ a' = a /\ same = true \/ class_of a = KVector /\ class_of a' = PointStamped)).
Proof.
  intros S E r a b a' same H. rewrite (convert_stock r H). unfold messages. cbn [In].
  destruct a as [m|m|m|m|c|[h|] v|h x|h t|h w|n h]; destruct b as [| | | | | | | | |k]; cbn [class_of class_eqb stock_to stock_from to_msg_msg to_msg_vector from_msg_msg from_msg_vector convert_vector obind fst snd andb];
    intros X; try discriminate; try (injection X as <- <-; cbn [class_of Stamped]; split; [intuition congruence|intuition congruence]).
  destruct (Nat.eqb_spec n k) as [->|N]; [|discriminate]. injection X as <- <-. cbn [class_of]. split; [intuition congruence|intuition congruence].
Qed.
Print Assumptions C73_class_of_the_result.

(** "The type specified must have a valid conversion from the input type, else the function will
    raise an exception": a PointStamped asked for as a Vector3Stamped, PoseStamped or PointCloud2
    is returned as the PointStamped it is, from convert and from transform. *)
Theorem C73_invalid_conversion_is_not_refused_refuted :
  forall (S : Scalar) (E : Type) (r : registries S E) bi m u timeout t, stock r -> lookup_to bi u (m_header m) timeout = Return t ->
  forall b, In b [Vector3Stamped; PoseStamped; PointCloud2] ->
  convert r (OPoint m) b = Return (OPoint m, true) /\
  snd (py_transform_to r bi (OPoint m) u timeout (Some b)) = Return (OPoint (py_do_transform_point m t)).
Proof.
  intros S E r bi m u timeout t H L b I. destruct (stock_maps r H) as (M & _).
  assert (C : forall m', convert r (OPoint m') b = Return (OPoint m', true)).
  { intros m'. rewrite (convert_stock r H). cbn [In] in I. intuition (subst b; reflexivity). }
  split; [apply C|]. rewrite py_transform_to_is, M. cbn [class_of stock_do header_of snd]. rewrite L. cbn [obind do_transform_point finish]. rewrite C. reflexivity.
Qed.
Print Assumptions C73_invalid_conversion_is_not_refused_refuted.

(** ** Cases *)
Definition loaded {S : Scalar} {E : Type} : registries S E := process [Tf2Kdl; Tf2GeometryMsgs; Tf2SensorMsgs].
Lemma loaded_stock : forall S E, stock (@loaded S E).
Proof. intros S E. eexists. split; [|reflexivity]. intros []; cbn; tauto. Qed.
Definition always120 : py_interface RS unit := mkPyInterface (fun _ _ _ _ => Return T120) (fun _ _ _ _ _ _ => Return T120).
Definition a_point : mstamped rxyz := mkMstamped (mkHeader 7 3000000000 "laser") (@mkXyz RS 1%R 0%R 0%R).
Example C73_example :
  stock (@loaded RS unit) /\ In (class_of (OPoint a_point)) transformable /\ is_unit (rot T120) /\
  py_transform_to loaded always120 (OPoint a_point) (inl "map"%string) 0 None =
    ([CLookup "map" "laser" 3000000000 0], Return (OPoint (py_do_transform_point a_point T120))) /\
  (exists o', object_moved T120 (OPoint a_point) o' /\ header_of o' = Some (t_header T120)) /\
  well_formed (OCloud (@mkPycloud RS header0 1%Z 1%Z ["x"; "y"; "z"]%string [[1; 0; 0]%R])) /\
  snd (py_transform_to loaded always120 (OOther 5 (Some header0)) (inl "map"%string) 0 None) = Raise XTypeException /\
  snd (py_transform_to loaded always120 (OKVector None (@V3 RS 1%R 0%R 0%R)) (inl "map"%string) 0 None) = Raise XAttributeError.
Proof.
  split; [apply loaded_stock|]. split; [left; reflexivity|]. split; [exact T120_unit|]. split; [reflexivity|]. split.
  { destruct (C73_result_is_the_object_moved unit loaded always120 (OPoint a_point) _ (inl "map"%string) 0 T120 (loaded_stock _ _) (or_introl eq_refl) eq_refl I eq_refl T120_unit)
      as (o' & _ & _ & Mo & _). exists o'. split; [exact Mo|apply Mo]. }
  split; [constructor; [cbn [List.length]; lia|constructor]|]. split; reflexivity.
Qed.
(** a conversion between two classes of the user's, one way only *)
Example C73_registration_example :
  let one_way : converter RS unit := fun o => match o with OOther 1 h => Return (OOther 2 h, false) | _ => Raise XAttributeError end in
  let r := add_convert loaded (OtherClass 1, OtherClass 2) one_way in
  convert r (OOther 1 None) (OtherClass 2) = Return (OOther 2 None, false) /\
  convert r (OOther 2 None) (OtherClass 1) = Raise XTypeException /\
  get_convert (@loaded RS unit) (OtherClass 1, KVector) = Raise XTypeException.
Proof. split; [reflexivity|]. split; reflexivity. Qed.
(** the buffer of C71: the data arrive while transform waits *)
Definition p64 : mstamped (gxyz D64) := mkMstamped (mkHeader 7 1600000000123456789 "laser") (mkXyz (@sone D64) szero szero).
Definition class_got {S E} (r : outcome E (pyobj S)) : option pyclass := match r with Return o => Some (class_of o) | _ => None end.
Definition frame_got {S E} (r : outcome E (pyobj S)) : option string := match r with Return o => match header_of o with Some h => Some (h_frame h) | None => None end | _ => None end.
Example C73_buffer_example :
  answer (can_within 50 (coming 1000) 0 (to_frame (inl "map"%string) (m_header p64)) 1000) = Some true /\
  class_got (snd (py_transform_to loaded (buffer_at 50 (coming 1000) 0) (OPoint p64) (inl "map"%string) 1000 (Some KVector))) = Some KVector /\
  frame_got (snd (py_transform_to loaded (buffer_at 50 (coming 1000) 0) (OPoint p64) (inl "map"%string) 1000 None)) = Some "map"%string /\
  class_got (snd (py_transform_to loaded (buffer_at 50 (coming 1000) 0) (OPoint p64) (inl "map"%string) 60 None)) = None.
Proof. split; [vmr|]. split; [vmr|]. split; vmr. Qed.
