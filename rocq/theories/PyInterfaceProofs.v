(** * Proofs about Python's transform and convert *)
From Coq Require Import ZArith Bool String List Reals Lra Lia.
From Verif Require Import RosTime Scalar LinearMath Cache BufferCore Instances RealSlerp RealQuat SpecReal RealMatrix GeomMsgs SpecGeom GeomProofs GeomReal
  ForeignGeom SpecForeign ForeignProofs PropsForeign SensorMsgs PropsCloud BufferInterface SpecWait PyTime PyCore PyBuffer SpecPyWait PyInterface SpecPyInterface.
Import ListNotations.
Open Scope Z_scope.

Lemma class_eqb_eq : forall a b, class_eqb a b = true <-> a = b.
Proof.
  intros [] []; cbn [class_eqb]; split; intros H; try discriminate; try reflexivity.
  - apply Nat.eqb_eq in H. subst. reflexivity.
  - injection H as ->. apply Nat.eqb_refl.
Qed.
Lemma class_eqb_refl : forall a, class_eqb a a = true.
Proof. intros a. apply class_eqb_eq. reflexivity. Qed.
Lemma class_eqb_neq : forall a b, class_eqb a b = false <-> a <> b.
Proof. intros a b. rewrite <- class_eqb_eq. destruct (class_eqb a b); split; congruence. Qed.

Section P.
Context {S : Scalar} {E : Type}.
Notation registries := (registries S E).

Lemma last_wins : forall (regs : list (pyclass * transformer S E)) (r : registries) k,
  get (fold_left (fun r kf => add r (fst kf) (snd kf)) regs r) k = match last_for k regs with Some f => Return f | None => get r k end.
Proof.
  induction regs as [|[k' f] regs IH]; intros r k; cbn [fold_left last_for fst snd]; [reflexivity|]. rewrite IH.
  destruct (last_for k regs); [reflexivity|]. unfold get, dget, add, dset. cbn [type_map]. destruct (class_eqb k k'); reflexivity.
Qed.
Lemma last_wins_to : forall (regs : list (pyclass * converter S E)) (r : registries) k,
  get_to_msg (fold_left (fun r kf => add_to_msg r (fst kf) (snd kf)) regs r) k = match last_for k regs with Some f => Return f | None => get_to_msg r k end.
Proof.
  induction regs as [|[k' f] regs IH]; intros r k; cbn [fold_left last_for fst snd]; [reflexivity|]. rewrite IH.
  destruct (last_for k regs); [reflexivity|]. unfold get_to_msg, dget, add_to_msg, dset. cbn [to_msg_map]. destruct (class_eqb k k'); reflexivity.
Qed.
Lemma last_wins_from : forall (regs : list (pyclass * converter S E)) (r : registries) k,
  get_from_msg (fold_left (fun r kf => add_from_msg r (fst kf) (snd kf)) regs r) k = match last_for k regs with Some f => Return f | None => get_from_msg r k end.
Proof.
  induction regs as [|[k' f] regs IH]; intros r k; cbn [fold_left last_for fst snd]; [reflexivity|]. rewrite IH.
  destruct (last_for k regs); [reflexivity|]. unfold get_from_msg, dget, add_from_msg, dset. cbn [from_msg_map]. destruct (class_eqb k k'); reflexivity.
Qed.

(** ** The maps of the stock registries *)
Definition owner (k : pyclass) : option package :=
  match k with
  | PointStamped | Vector3Stamped | PoseStamped | WrenchStamped => Some Tf2GeometryMsgs
  | PointCloud2 => Some Tf2SensorMsgs
  | KVector | KFrame | KTwist | KWrench => Some Tf2Kdl
  | OtherClass _ => None
  end.
Definition stock_do (k : pyclass) : option (transformer S E) :=
  match k with
  | PointStamped => Some do_transform_point | Vector3Stamped => Some do_transform_vector3
  | PoseStamped => Some do_transform_pose | WrenchStamped => Some do_transform_wrench
  | PointCloud2 => Some do_transform_cloud
  | KVector => Some kdl_do_transform_vector | KFrame => Some kdl_do_transform_frame
  | KTwist => Some kdl_do_transform_twist | KWrench => Some kdl_do_transform_wrench
  | OtherClass _ => None
  end.
Definition stock_to (k : pyclass) : option (converter S E) :=
  match k with
  | PointStamped | Vector3Stamped | PoseStamped | PointCloud2 => Some to_msg_msg
  | KVector => Some to_msg_vector
  | _ => None
  end.
Definition stock_from (k : pyclass) : option (converter S E) :=
  match k with
  | PointStamped | Vector3Stamped | PoseStamped | PointCloud2 => Some from_msg_msg
  | KVector => Some from_msg_vector
  | _ => None
  end.
Definition stock_convert (k : pyclass * pyclass) : option (converter S E) :=
  match k with (KVector, KVector) => Some convert_vector | _ => None end.

Definition owned (k : pyclass) (p : package) : bool :=
  match owner k, p with Some Tf2GeometryMsgs, Tf2GeometryMsgs | Some Tf2Kdl, Tf2Kdl | Some Tf2SensorMsgs, Tf2SensorMsgs => true | _, _ => false end.
Lemma import_do : forall (r : registries) p k, type_map (import r p) k = if owned k p then stock_do k else type_map r k.
Proof. intros r [] []; reflexivity. Qed.
Lemma import_to : forall (r : registries) p k, to_msg_map (import r p) k = if owned k p then match stock_to k with Some f => Some f | None => to_msg_map r k end else to_msg_map r k.
Proof. intros r [] []; reflexivity. Qed.
Lemma import_from : forall (r : registries) p k, from_msg_map (import r p) k = if owned k p then match stock_from k with Some f => Some f | None => from_msg_map r k end else from_msg_map r k.
Proof. intros r [] []; reflexivity. Qed.
Lemma import_convert : forall (r : registries) p k, convert_map (import r p) k =
  if owned (fst k) p then match stock_convert k with Some f => Some f | None => convert_map r k end else convert_map r k.
Proof. intros r [] [[] []]; reflexivity. Qed.

Lemma process_map : forall {K V : Type} (map : registries -> dict K V) (own : K -> package -> bool) (st : dict K V),
  (forall r p k, map (import r p) k = if own k p then match st k with Some f => Some f | None => map r k end else map r k) ->
  forall l r k, map (fold_left import l r) k =
    if existsb (own k) l then match st k with Some f => Some f | None => map r k end else map r k.
Proof.
  intros K V map own st H. induction l as [|p l IH]; intros r k; cbn [fold_left existsb]; [reflexivity|].
  rewrite IH, H. destruct (own k p), (existsb (own k) l), (st k); reflexivity.
Qed.
Lemma owner_in : forall k (l : list package), (forall p, In p l) -> owner k <> None -> existsb (owned k) l = true.
Proof.
  intros k l A N. apply existsb_exists. destruct (owner k) as [p|] eqn:O; [|contradiction]. exists p. split; [apply A|]. unfold owned. rewrite O. destruct p; reflexivity.
Qed.

Lemma stock_maps : forall r : registries, stock r ->
  (forall k, type_map r k = stock_do k) /\ (forall k, to_msg_map r k = stock_to k) /\
  (forall k, from_msg_map r k = stock_from k) /\ (forall k, convert_map r k = stock_convert k).
Proof.
  intros r (l & A & ->). unfold process. split; [|split; [|split]].
  - intros k. rewrite (process_map type_map owned stock_do).
    + destruct (owner k) eqn:O; [rewrite owner_in by (try exact A; congruence)|]; destruct k; try discriminate; try reflexivity.
      destruct (existsb _ l); reflexivity.
    + intros r p k'. rewrite import_do. destruct (owned k' p) eqn:W; [|reflexivity]. destruct k', p; try reflexivity; discriminate.
  - intros k. rewrite (process_map to_msg_map owned stock_to) by exact import_to.
    destruct (owner k) eqn:O; [rewrite owner_in by (try exact A; congruence)|]; destruct k; try discriminate; try reflexivity. destruct (existsb _ l); reflexivity.
  - intros k. rewrite (process_map from_msg_map owned stock_from) by exact import_from.
    destruct (owner k) eqn:O; [rewrite owner_in by (try exact A; congruence)|]; destruct k; try discriminate; try reflexivity. destruct (existsb _ l); reflexivity.
  - intros [k k']. rewrite (process_map convert_map (fun kk => owned (fst kk)) stock_convert) by exact import_convert. cbn [fst].
    destruct (owner k) eqn:O.
    + change (fun p => owned k p) with (owned k). rewrite owner_in by (try exact A; congruence). destruct (stock_convert _); reflexivity.
    + destruct k; try discriminate. destruct (existsb _ l); reflexivity.
Qed.

(** convert with the stock registries, spelled out *)
Definition message_class (k : pyclass) : bool := match k with PointStamped | Vector3Stamped | PoseStamped | PointCloud2 => true | _ => false end.
Lemma message_in : forall k, message_class k = true <-> In k messages.
Proof. unfold messages. intros []; cbn; split; intros H; try discriminate; intuition congruence. Qed.
Lemma convert_stock : forall r : registries, stock r -> forall a b, convert r a b =
  match class_of a, b with
  | KVector, KVector => convert_vector a
  | _, _ =>
      if class_eqb (class_of a) b then Return (a, false)
      else match stock_to (class_of a), stock_from b with
           | Some f_to, Some f_from => obind (f_to a) (fun m => obind (f_from (fst m)) (fun b => Return (fst b, snd m && snd b)))
           | _, _ => Raise XTypeException
           end
  end.
Proof.
  intros r H a b. destruct (stock_maps r H) as (_ & Mt & Mf & Mc). unfold convert, get_convert, get_to_msg, get_from_msg, dget.
  rewrite Mc, Mt, Mf. destruct (class_of a) eqn:C, b; cbn [stock_convert obind stock_to stock_from class_eqb]; try reflexivity.
  destruct a; try discriminate. destruct h as [h|]; cbn [convert_vector]; reflexivity.
Qed.

Lemma py_transform_to_is : forall (r : registries) bi o u timeout nt, py_transform_to r bi o u timeout nt =
  match type_map r (class_of o), header_of o with
  | None, _ => ([], Raise XTypeException)
  | Some _, None => ([], Raise XAttributeError)
  | Some f, Some h => ([call_to u h timeout], obind (lookup_to bi u h timeout) (fun t => obind (f o t) (fun res => finish r res nt)))
  end.
Proof.
  intros r bi o u timeout nt. destruct u as [target|[[target tt] fixed]]; cbn [py_transform_to call_to lookup_to];
    unfold py_transform, py_transform_full, get, dget; destruct (type_map r (class_of o)); reflexivity.
Qed.
Lemma known : forall k, In k transformable -> exists f, stock_do k = Some f.
Proof. intros k. unfold transformable. cbn [In]. intuition (subst; cbn [stock_do]; eauto). Qed.
Lemma unknown : forall k, ~ In k transformable -> stock_do k = None.
Proof. intros []; unfold transformable; cbn [In]; intuition congruence. Qed.
End P.

(** ** Values *)
Lemma vec_tv : forall v : vec3 RS, vec v = tv v.
Proof. reflexivity. Qed.
Lemma cloud_moved : forall (c : pycloud RS) (T : rtstamped), is_unit (rot T) -> Forall (fun p => (3 <= List.length p)%nat) (pc_points c) ->
  exists c', py_do_transform_cloud c T = Some c' /\ pc_header c' = t_header T /\ pc_names c' = pc_names c /\ pc_height c' = 1 /\
    pc_width c' = Z.of_nat (List.length (pc_points c)) /\
    Forall2 (fun p p' => exists x y z rest, p = x :: y :: z :: rest /\
        let q := moved T (mkXyz x y z) in p' = gx q :: gy q :: gz q :: rest) (pc_points c) (pc_points c').
Proof.
  intros c T U H. unfold py_do_transform_cloud.
  assert (A : forall l, Forall (fun p => (3 <= List.length p)%nat) l -> exists l', py_points (transformToKDL T) l = Some l' /\ List.length l' = List.length l /\
    Forall2 (fun p p' => exists x y z rest, p = x :: y :: z :: rest /\ let q := moved T (mkXyz x y z) in p' = gx q :: gy q :: gz q :: rest) l l').
  { induction l as [|p l IH]; intros Hl.
    - exists []. repeat split. constructor.
    - inversion Hl as [|p' l'' Hp Hl']; subst. destruct (IH Hl') as (l' & E & L & P).
      destruct p as [|a [|b [|d rest]]]; cbn in Hp; try lia.
      cbn [py_points py_point]. rewrite E. eexists. split; [reflexivity|]. split; [cbn [List.length]; rewrite L; reflexivity|].
      constructor; [|exact P]. exists a, b, d, rest. split; [reflexivity|]. cbv zeta. rewrite <- moved_x by exact U. rewrite <- (toKDL_tfx T U). reflexivity. }
  destruct (A _ H) as (l' & El & L & P). rewrite El. eexists. split; [reflexivity|]. cbn [pc_header pc_names pc_points pc_height pc_width].
  split; [reflexivity|]. split; [reflexivity|]. split; [reflexivity|]. split; [rewrite L; reflexivity|]. exact P.
Qed.
Lemma stock_moves : forall {E} (T : rtstamped) (o : pyobj RS) (f : transformer RS E), is_unit (rot T) -> well_formed o -> stock_do (class_of o) = Some f ->
  exists o', f o T = Return o' /\ object_moved T o o'.
Proof.
  intros E T o f U W F. pose proof (tfx_rigid _ (unit_nonzero _ U)) as R.
  destruct o as [m|m|m|m|c|h v|h x|h t|h w|n h]; cbn [class_of stock_do] in F; try discriminate; injection F as <-; cbn [well_formed] in W.
  - eexists. split; [reflexivity|]. destruct (C60_points_agree T m U) as (_ & _ & _ & P & _). rewrite P. split; reflexivity.
  - eexists. split; [reflexivity|]. destruct (C60_vectors_agree T m U) as [P _]. rewrite P. split; reflexivity.
  - eexists. split; [reflexivity|]. destruct (C60_poses_agree T m U W) as (_ & _ & _ & _ & P & _ & _ & Hh). split; [cbn [header_of]; rewrite Hh; reflexivity|exact P].
  - eexists. split; [reflexivity|]. destruct (C60_python_wrench_is_only_rotated T m U) as [P _]. rewrite P. split; reflexivity.
  - destruct (cloud_moved c T U W) as (c' & P & Hh & N & A & B & D). cbn [do_transform_cloud]. rewrite P. eexists. split; [reflexivity|].
    split; [cbn [header_of]; rewrite Hh; reflexivity|]. auto.
  - eexists. split; [reflexivity|]. split; [reflexivity|]. cbn [kdl_do_transform_vector]. rewrite toKDL_tfx by exact U. rewrite <- moved_x by exact U. reflexivity.
  - eexists. split; [reflexivity|]. split; [reflexivity|]. cbn [kdl_do_transform_frame]. intros r.
    destruct (C60_frames_agree T (mkTf2stamped x 0 EmptyString) U) as (_ & _ & _ & P & _). specialize (P (tv r)).
    unfold kdl_doTransform_Frame in P. cbn [k_data] in P. destruct r as [r1 r2 r3]. exact P.
  - eexists. split; [reflexivity|]. split; [reflexivity|]. cbn [kdl_do_transform_twist].
    destruct (C60_twist_velocities_are_carried_along T (mkMstamped header0 (mkTwist (vec (k_vel t)) (vec (k_rot t)))) U) as (V & A & _).
    unfold twist_through_kdl, kdl_doTransform_Twist, kdl_fromMsg_TwistStamped, kdl_toMsg_TwistStamped, velocity in V, A. cbn [m_data k_data linear angular] in V, A.
    unfold vec in V, A. cbn [gx gy gz] in V, A. destruct t as [[a1 a2 a3] [b1 b2 b3]]. split; [exact A|exact V].
  - eexists. split; [reflexivity|]. split; [reflexivity|]. cbn [kdl_do_transform_wrench].
    destruct w as [[a1 a2 a3] [b1 b2 b3]].
    rewrite toKDL_tfx by exact U. unfold kdl_wrench. cbn [k_force k_torque].
    assert (X : forall v : vec3 RS, turn (rot T) (vec v) = vec (mmulv (xbasis (tfx T)) v)).
    { intros [v1 v2 v3]. rewrite turn_mat by exact U. reflexivity. }
    rewrite !X. split; [reflexivity|]. apply fv_inj. rewrite fv_plus, fv_cross. reflexivity.
Qed.
