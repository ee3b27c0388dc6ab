(** * Property C55: point clouds *)
From Coq Require Import ZArith Bool String List Arith Lia Reals Lra.
From Verif Require Import RosTime Scalar LinearMath Instances RealQuat SpecReal RealMatrix GeomMsgs SpecGeom GeomReal PropsGeom ForeignGeom SpecForeign ForeignProofs SensorMsgs SpecCloud CloudProofs.
Import ListNotations.
Local Open Scope nat_scope.

(** ** Any float format, bytes of any kind *)
(** The transform in single precision, as the code builds it from the message. *)
Definition float_transform {D F : Scalar} (narrow : D -> F) (T : gtstamped D) : xform F :=
  transformToEigen (mkGtransform
    (mkXyz (narrow (gx (shift T))) (narrow (gy (shift T))) (narrow (gz (shift T))))
    (mkGquat (narrow (gqx (rot T))) (narrow (gqy (rot T))) (narrow (gqz (rot T))) (narrow (gqw (rot T))))).

(** The call succeeds on every laid-out cloud, of any number of points, whatever the output held
    and also in place: the coordinates of every point are replaced by those of its image, every
    other byte and everything else but the header is the input's, the header is the transform's,
    no other object changes. *)
Theorem C55_every_point_and_nothing_else :
  forall (cell : Type) (D F : Scalar) (narrow : D -> F) (dec : list cell -> F) (enc : F -> list cell)
         (T : gtstamped D) (m : mem (cloud cell)) i o n ox oy oz,
  (forall x, length (enc x) = 4) -> layout (m i) n ox oy oz ->
  exists m', doTransform_PointCloud2 narrow dec enc (at_loc i) (at_loc o) T m = Done m' /\
    same_shape (m' o) (m i) /\ c_header (m' o) = t_header T /\
    (forall k, k < n ->
       let p := eig_apply (float_transform narrow T)
                  (V3 (dec (bytes (m i) k ox)) (dec (bytes (m i) k oy)) (dec (bytes (m i) k oz))) in
       bytes (m' o) k ox = enc (vx p) /\ bytes (m' o) k oy = enc (vy p) /\ bytes (m' o) k oz = enc (vz p)) /\
    (forall j, ~ is_coordinate (m i) ox oy oz j -> nth_error (c_data (m' o)) j = nth_error (c_data (m i)) j) /\
    (forall j, j <> o -> m' j = m j).
Proof.
  intros cell D F narrow dec enc T m i o n ox oy oz E4 [Lx Ly Lz Ls Li La].
  set (c := m i) in *.
  set (m1 := wr (r_cheader (at_loc o)) (t_header T) (wr (at_loc o) c m)).
  assert (C1 : m1 o = set_cheader (t_header T) c).
  { unfold m1. cbn [wr rd r_cheader member at_loc]. rewrite !Nat.eqb_refl. reflexivity. }
  assert (Cj : forall j, j <> o -> m1 j = m j).
  { intros j Hj. unfold m1. cbn [wr rd r_cheader member at_loc]. apply Nat.eqb_neq in Hj. rewrite !Hj. reflexivity. }
  assert (Ci : c_fields (m1 i) = c_fields c /\ c_data (m1 i) = c_data c /\ c_point_step (m1 i) = c_point_step c).
  { destruct (Nat.eq_dec i o) as [X|X]; [rewrite X, C1|rewrite (Cj i X)]; repeat split. }
  destruct Ci as (Cf & Cd & Cs).
  pose proof (loop_ok dec enc E4 (float_transform narrow T) (c_point_step c) ox oy oz n (c_data c) Ls Li La i o n 0
    (Datatypes.S (length (c_data c))) m1 m1 eq_refl) as H.
  destruct H as (m' & R & (St & Sh & Ot)).
  { assert (n <= n * c_point_step c) by nia. lia. }
  { intros _. exact Cd. }
  { apply start. rewrite C1. reflexivity. }
  exists m'. split; [|split; [|split; [|split; [|split]]]].
  - unfold doTransform_PointCloud2. change (rd (at_loc i) m) with c. fold m1. cbn [rd at_loc].
    rewrite Cf, C1. cbn [c_fields set_cheader]. rewrite !(set_field_spec c "x" ox Lx), !(set_field_spec c "y" oy Ly), !(set_field_spec c "z" oz Lz).
    rewrite Cd, Cs. cbn [c_point_step set_cheader]. exact R.
  - rewrite C1 in Sh. destruct (m' o) as [h1 h2 h3 h4 h5 h6 h7 h8 h9], c as [g1 g2 g3 g4 g5 g6 g7 g8 g9]. unfold set_cdata, set_cheader in Sh. cbn [c_header c_height c_width c_fields c_bigendian c_point_step c_row_step c_data c_dense] in *.
    injection Sh as -> -> -> -> -> -> -> ->. unfold same_shape. cbn [c_header c_height c_width c_fields c_bigendian c_point_step c_row_step c_data c_dense].
    repeat split. exact (proj1 St).
  - rewrite C1 in Sh. exact (f_equal c_header Sh).
  - intros k Hk. unfold bytes. assert (P : c_point_step (m' o) = c_point_step c) by (rewrite C1 in Sh; exact (f_equal c_point_step Sh)).
    rewrite P. exact (final_bytes dec enc E4 _ _ _ _ _ n (c_data c) Ls Li La _ k St Hk).
  - intros j Hj. eapply final_rest; [exact Ls|exact Li|exact La|exact St|exact Hj].
  - intros j Hj. rewrite (Ot j Hj). apply Cj. exact Hj.
Qed.
Print Assumptions C55_every_point_and_nothing_else.

(** a concrete cloud: two points of 20 bytes, with an intensity before and padding after; the
    "bytes" are numbers, a float is the number in its first byte *)
Definition fields3 : list pfield :=
  [mkPfield "intensity" 0 7 1; mkPfield "x" 4 7 1; mkPfield "z" 8 7 1; mkPfield "y" 12 7 1].
Definition two_points : cloud Z :=
  mkCloud (mkHeader 3 7%Z "laser") 1 2 fields3 false 20 40 (List.map Z.of_nat (seq 100 40)) true.
Example C55_case : layout two_points 2 4 12 8.
Proof.
  constructor.
  - exists [mkPfield "intensity" 0 7 1]. eexists. eexists. split; [reflexivity|]. split; [reflexivity|]. split; [reflexivity|].
    intros g [<-|[]]. discriminate.
  - exists [mkPfield "intensity" 0 7 1; mkPfield "x" 4 7 1; mkPfield "z" 8 7 1]. eexists. eexists. split; [reflexivity|]. split; [reflexivity|]. split; [reflexivity|].
    intros g [<-|[<-|[<-|[]]]]; discriminate.
  - exists [mkPfield "intensity" 0 7 1; mkPfield "x" 4 7 1]. eexists. eexists. split; [reflexivity|]. split; [reflexivity|]. split; [reflexivity|].
    intros g [<-|[<-|[]]]; discriminate.
  - reflexivity.
  - cbn. lia.
  - lia.
Qed.

(** ** Over the reals: every point is moved by the transform *)
Theorem C55_points_are_moved :
  forall (cell : Type) (dec : list cell -> R) (enc : R -> list cell)
         (T : rtstamped) (m : mem (cloud cell)) i o n ox oy oz,
  (forall x, length (enc x) = 4) -> (forall x, dec (enc x) = x) ->
  is_unit (rot T) -> layout (m i) n ox oy oz ->
  let point (c : cloud cell) k := @mkXyz RS (dec (bytes c k ox)) (dec (bytes c k oy)) (dec (bytes c k oz)) in
  exists m', doTransform_PointCloud2 (D := RS) (F := RS) (fun x => x) dec enc (at_loc i) (at_loc o) T m = Done m' /\
    forall k, k < n -> point (m' o) k = moved T (point (m i) k).
Proof.
  intros cell dec enc T m i o n ox oy oz E4 DE U L point.
  destruct (C55_every_point_and_nothing_else cell RS RS (fun x => x) dec enc T m i o n ox oy oz E4 L) as (m' & R & _ & _ & P & _).
  exists m'. split; [exact R|]. intros k Hk. specialize (P k Hk). cbv zeta in P. destruct P as (Px & Py & Pz).
  unfold point at 1. rewrite Px, Py, Pz, !DE. rewrite <- moved_x by exact U. rewrite <- (toEigen_tfx T U).
  assert (FT : float_transform (D := RS) (F := RS) (fun x => x) T = transformToEigen (t_transform T)) by reflexivity.
  rewrite FT. reflexivity.
Qed.
Print Assumptions C55_points_are_moved.
(** an encoding of reals in four cells exists *)
Example C55_points_case : let enc := fun x : R => [x; x; x; x] in let dec := fun l : list R => hd 0%R l in
  (forall x, length (enc x) = 4) /\ (forall x, dec (enc x) = x) /\ is_unit (rot T120).
Proof. cbv zeta. split; [reflexivity|]. split; [reflexivity|exact T120_unit]. Qed.

(** ** What happens outside the layout *)
(** A cloud without a field called x, y or z: std::runtime_error, but the output has already been
    overwritten by a copy of the input that claims to be in the target frame. *)
Theorem C55_missing_field_leaves_a_mislabelled_copy :
  forall (cell : Type) (D F : Scalar) (narrow : D -> F) (dec : list cell -> F) (enc : F -> list cell)
         (T : gtstamped D) (m : mem (cloud cell)) i o,
  (exists name, In name ["x"; "y"; "z"]%string /\ forall f, In f (c_fields (m i)) -> f_name f <> name) ->
  exists m' name, In name ["x"; "y"; "z"]%string /\
    doTransform_PointCloud2 narrow dec enc (at_loc i) (at_loc o) T m = Threw m' ("Field " ++ name ++ " does not exist")%string /\
    m' o = set_cheader (t_header T) (m i).
Proof.
  intros cell D F narrow dec enc T m i o (name & Hn & Hf). set (c := m i) in *.
  set (m1 := wr (r_cheader (at_loc o)) (t_header T) (wr (at_loc o) c m)).
  assert (C1 : m1 o = set_cheader (t_header T) c).
  { unfold m1. cbn [wr rd r_cheader member at_loc]. rewrite !Nat.eqb_refl. reflexivity. }
  assert (Cf : c_fields (m1 i) = c_fields c).
  { destruct (Nat.eq_dec i o) as [X|X]; [rewrite X, C1; reflexivity|].
    unfold m1. cbn [wr rd r_cheader member at_loc]. apply Nat.eqb_neq in X. rewrite !X. reflexivity. }
  pose proof (set_field_none _ _ Hf) as N. exists m1.
  unfold doTransform_PointCloud2. change (rd (at_loc i) m) with c. fold m1. cbn [rd at_loc]. rewrite Cf.
  destruct (set_field (c_fields c) "x") as [xi|] eqn:Ex; [|exists "x"%string; split; [left; reflexivity|split; [reflexivity|exact C1]]].
  destruct (set_field (c_fields c) "y") as [yi|] eqn:Ey; [|exists "y"%string; split; [right; left; reflexivity|split; [reflexivity|exact C1]]].
  destruct (set_field (c_fields c) "z") as [zi|] eqn:Ez; [|exists "z"%string; split; [right; right; left; reflexivity|split; [reflexivity|exact C1]]].
  exfalso. destruct Hn as [<-|[<-|[<-|[]]]]; congruence.
Qed.
Print Assumptions C55_missing_field_leaves_a_mislabelled_copy.

(** Data that are not a whole number of points (or a point_step of 0 with any data): the loop
    steps over its end marker and runs out of the data. The code does not check. *)
Theorem C55_ragged_data_is_undefined :
  forall (cell : Type) (D F : Scalar) (narrow : D -> F) (dec : list cell -> F) (enc : F -> list cell)
         (T : gtstamped D) (m : mem (cloud cell)) i o ox oy oz,
  has_field (m i) "x" ox -> has_field (m i) "y" oy -> has_field (m i) "z" oz ->
  (forall k, length (c_data (m i)) <> k * c_point_step (m i)) ->
  doTransform_PointCloud2 narrow dec enc (at_loc i) (at_loc o) T m = Undefined.
Proof.
  intros cell D F narrow dec enc T m i o ox oy oz Lx Ly Lz H. set (c := m i) in *.
  set (m1 := wr (r_cheader (at_loc o)) (t_header T) (wr (at_loc o) c m)).
  assert (C1 : m1 o = set_cheader (t_header T) c).
  { unfold m1. cbn [wr rd r_cheader member at_loc]. rewrite !Nat.eqb_refl. reflexivity. }
  assert (Ci : c_fields (m1 i) = c_fields c /\ c_data (m1 i) = c_data c /\ c_point_step (m1 i) = c_point_step c).
  { destruct (Nat.eq_dec i o) as [X|X]; [rewrite X, C1; repeat split|].
    unfold m1. cbn [wr rd r_cheader member at_loc]. apply Nat.eqb_neq in X. rewrite !X. repeat split. }
  destruct Ci as (Cf & Cd & Cs).
  unfold doTransform_PointCloud2. change (rd (at_loc i) m) with c. fold m1. cbn [rd at_loc].
  rewrite Cf, C1. cbn [c_fields set_cheader]. rewrite !(set_field_spec c "x" ox Lx), !(set_field_spec c "y" oy Ly), !(set_field_spec c "z" oz Lz).
  rewrite Cd, Cs. cbn [c_point_step set_cheader].
  match goal with |- cloud_loop _ _ _ _ ?f ?t _ _ _ _ _ _ _ _ _ _ = _ => generalize f t end. intros fuel t.
  assert (G : forall fuel k yi zi xo yo zo m2,
    cloud_loop dec enc (at_loc i) (at_loc o) fuel t (c_point_step c) (c_point_step c) (length (c_data c) + ox) (k * c_point_step c + ox) yi zi xo yo zo m2 = Undefined).
  { clear fuel. induction fuel as [|fuel IH]; intros k yi zi xo yo zo m2; [reflexivity|]. cbn [cloud_loop].
    replace (k * c_point_step c + ox =? length (c_data c) + ox) with false by (symmetry; apply Nat.eqb_neq; specialize (H k); lia).
    repeat match goal with |- match ?x with Some _ => _ | None => _ end = _ => destruct x; [|reflexivity] end.
    replace (k * c_point_step c + ox + c_point_step c) with (S k * c_point_step c + ox) by lia. apply IH. }
  exact (G fuel 0 oy oz ox oy oz m1).
Qed.
Print Assumptions C55_ragged_data_is_undefined.
Example C55_ragged_case : exists c : cloud Z, has_field c "x" 0 /\ has_field c "y" 4 /\ has_field c "z" 8 /\
  forall k, length (c_data c) <> k * c_point_step c.
Proof.
  exists (mkCloud header0 1 1 [mkPfield "x" 0 7 1; mkPfield "y" 4 7 1; mkPfield "z" 8 7 1] false 12 13 (repeat 0%Z 13) true).
  split; [exists []; do 2 eexists; split; [reflexivity|split; [reflexivity|split; [reflexivity|intros g []]]]|].
  split; [exists [mkPfield "x" 0 7 1]; do 2 eexists; split; [reflexivity|split; [reflexivity|split; [reflexivity|intros g [<-|[]]; discriminate]]]|].
  split; [exists [mkPfield "x" 0 7 1; mkPfield "y" 4 7 1]; do 2 eexists; split; [reflexivity|split; [reflexivity|split; [reflexivity|intros g [<-|[<-|[]]]; discriminate]]]|].
  cbn [c_data c_point_step]. rewrite repeat_length. intros k. lia.
Qed.

(** ** Python *)
(** With x, y, z the first three values of a point, every point is moved, its other values, the
    order and the number of points are kept and the header is the transform's. *)
Theorem C55_python_moves_the_first_three_values :
  forall (c : pycloud RS) (T : rtstamped), is_unit (rot T) ->
  (forall p, In p (pc_points c) -> 3 <= length p) ->
  exists c', py_do_transform_cloud c T = Some c' /\ pc_header c' = t_header T /\ pc_names c' = pc_names c /\
    length (pc_points c') = length (pc_points c) /\
    forall k a b d rest, nth_error (pc_points c) k = Some (a :: b :: d :: rest) ->
      let q := moved T (@mkXyz RS a b d) in nth_error (pc_points c') k = Some (gx q :: gy q :: gz q :: rest).
Proof.
  intros c T U H. unfold py_do_transform_cloud.
  assert (A : forall l, (forall p, In p l -> 3 <= length p) ->
    exists l', py_points (transformToKDL T) l = Some l' /\ length l' = length l /\
      forall k a b d rest, nth_error l k = Some (a :: b :: d :: rest) ->
        let q := moved T (@mkXyz RS a b d) in nth_error l' k = Some (gx q :: gy q :: gz q :: rest)).
  { induction l as [|p l IH]; intros Hl.
    - exists []. split; [reflexivity|]. split; [reflexivity|]. intros [|k]; discriminate.
    - destruct IH as (l' & E & L & P). { intros q Hq. apply Hl. right. exact Hq. }
      pose proof (Hl p (or_introl eq_refl)) as Hp. destruct p as [|a [|b [|d rest]]]; cbn in Hp; try lia.
      cbn [py_points py_point]. rewrite E. eexists. split; [reflexivity|]. split; [cbn [length]; rewrite L; reflexivity|].
      intros [|k] a' b' d' rest' Hk.
      + cbn [nth_error] in *. injection Hk as -> -> -> ->. cbv zeta. rewrite <- moved_x by exact U. rewrite <- (toKDL_tfx T U). reflexivity.
      + cbn [nth_error] in *. apply P. exact Hk. }
  destruct (A _ H) as (l' & E & L & P). rewrite E. eexists. split; [reflexivity|]. cbn [pc_header pc_names pc_points].
  split; [reflexivity|]. split; [reflexivity|]. split; [exact L|]. exact P.
Qed.
Print Assumptions C55_python_moves_the_first_three_values.
(** Python does not look at the names: with another value first it moves the wrong numbers; and it
    always returns an unorganised cloud. *)
Theorem C55_python_layout_refuted :
  exists (c : pycloud RS) (T : rtstamped) c', is_unit (rot T) /\ py_do_transform_cloud c T = Some c' /\
    pc_names c = ["intensity"; "x"; "y"; "z"]%string /\ pc_points c = [[9; 1; 0; 0]%R] /\
    moved T (@mkXyz RS 1%R 0%R 0%R) = @mkXyz RS 1%R 3%R 3%R /\
    (forall i, pc_points c' <> [[i; 1; 3; 3]%R]) /\
    pc_height c = 2%Z /\ pc_height c' = 1%Z.
Proof.
  exists (@mkPycloud RS header0 2 0 ["intensity"; "x"; "y"; "z"]%string [[9; 1; 0; 0]%R]), T120.
  destruct (C55_python_moves_the_first_three_values (@mkPycloud RS header0 2 0 ["intensity"; "x"; "y"; "z"]%string [[9; 1; 0; 0]%R]) T120 T120_unit)
    as (c' & E & Hh & Hn & Hl & Hp). { intros p [<-|[]]. cbn. lia. }
  exists c'. split; [exact T120_unit|]. split; [exact E|]. split; [reflexivity|]. split; [reflexivity|].
  split; [exact (proj2 C41_point_case)|]. split; [|split; [reflexivity|]].
  - intros i X. specialize (Hp 0 9%R 1%R 0%R [0%R] eq_refl). cbv zeta in Hp. rewrite X in Hp. cbn [nth_error] in Hp.
    injection Hp as _ _ _ Z. lra.
  - unfold py_do_transform_cloud in E. destruct (py_points _ _); [|discriminate]. injection E as <-. reflexivity.
Qed.
Print Assumptions C55_python_layout_refuted.
